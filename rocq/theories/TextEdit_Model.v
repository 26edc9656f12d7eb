(** Rewriting the bytes and str values of compiled code: replace, strip, center, ljust, rjust,
    expandtabs and zfill. *)
From Coq Require Import List ZArith Bool.
From Verif Require Import Base PyList Text_Model TextSearch_Model TextSplit_Model.
Import ListNotations.
Open Scope Z_scope.
Open Scope result_scope.

(** The two families of functions, bytes_* in bytes_wrapper.py and str* in string_wrapper.py, are
    the same programs over other operations.  These are the operations. *)
Record text_ops (T : Type) := mk_text_ops {
  t_len : T -> Z;
  t_find : T -> T -> Z -> Z -> result Z;
  t_slice : T -> Z -> Z -> T;
  t_join : T -> list T -> T;
  t_concat : T -> T -> T;
  t_mult : T -> Z -> T;
  t_lit : list Z -> T;               (* a literal of the program *)
  t_at_is : T -> Z -> Z -> result bool   (* x[i] == c *)
}.
Arguments t_len {T}. Arguments t_find {T}. Arguments t_slice {T}. Arguments t_join {T}.
Arguments t_concat {T}. Arguments t_mult {T}. Arguments t_lit {T}. Arguments t_at_is {T}.

(** [x[i]] of str: StringWrapper.convert_getitem (string_wrapper.py:600-626) and
    StringType::getitem (StringType.cpp:995-1029) *)
Definition str_getitem (x : str) (i : Z) : result str :=
  if (i <? - slen x) || (slen x <=? i) then Err IndexError
  else
    match x with
    | None => Ok None
    | Some l =>
        if slen x =? 1 then Ok x
        else
          let i := if i <? 0 then i + slen x else i in
          c <- cread (codepoints l) i ;; Ok (Some (mk_slayout (bytes_per_codepoint l) [c]))
    end.

(** A literal of one-byte code points; the empty literal is the null pointer. *)
Definition bytes_lit (d : list Z) : bytes := match d with [] => None | _ => Some d end.
Definition str_lit (d : list Z) : str :=
  match d with [] => None | _ => Some (mk_slayout 1 d) end.

Definition bytes_ops : text_ops bytes :=
  mk_text_ops bytes blen bytes_find bytes_getslice bytes_join bytes_concat bytes_mult bytes_lit
    (fun x i c => v <- bytes_getitem x i ;; Ok (v =? c)).

Definition str_ops : text_ops str :=
  mk_text_ops str slen str_find getsubstr str_join str_concat str_mult str_lit
    (fun x i c => v <- str_getitem x i ;; Ok (str_eq v (str_lit [c]))).

(** ** replace *)

(** The loop of bytes_replace (bytes_wrapper.py:121-139) and strReplace
    (string_wrapper.py:212-230): the pieces to be joined *)
Fixpoint replace_loop {T} (o : text_ops T) (fuel : nat) (x old : T) (max pos seen : Z)
    (out : list T) : result (list T) :=
  match fuel with
  | O => Err OutOfFuel
  | S fuel =>
      next <- (if (0 <=? max) && (max <=? seen) then Ok (-1)
               else t_find o x old pos (t_len o x)) ;;
      if (0 <=? next) && (next <? t_len o x) then
        let inc := if t_len o old =? 0 then 1 else 0 in
        replace_loop o fuel x old max
          (if t_len o old =? 0 then pos + 1 else next + t_len o old) (seen + 1)
          (out ++ [t_slice o x pos (next + inc)])
      else Ok (out ++ [t_slice o x pos (t_len o x)])
  end.

(** bytes_replace (bytes_wrapper.py:86-139) and strReplace (string_wrapper.py:191-230);
    [old_python] is IS_38_OR_LOWER. *)
Definition replace_text {T} (o : text_ops T) (old_python : bool) (x old new : T) (max : Z)
    : result T :=
  let blank := (0 <=? max) && (t_len o x =? 0) && (t_len o old =? 0) in
  if max =? 0 then Ok x
  else if blank then Ok (if old_python then x else new)
  else
    let start := if t_len o old =? 0 then [t_lit o []] else [] in
    out <- replace_loop o (S (Z.to_nat (t_len o x))) x old max 0
             (if t_len o old =? 0 then 1 else 0) start ;;
    Ok (t_join o new out).

Definition bytes_replace := replace_text bytes_ops.
Definition str_replace := replace_text str_ops.

(** ** strip *)

(** The two loops of BytesType::strip (BytesType.cpp:841-856), of stripInset_whitespace
    (StringType.cpp:1071-1083) and of StringType::strip (StringType.cpp:1143-1173): the bounds of
    what is left *)
Definition strip_bounds (d : list Z) (p : Z -> bool) (from_left from_right : bool)
    : result (Z * Z) :=
  l <- (if from_left then scan_up (scan_fuel d) (byte_test d (fun c => negb (p c))) 0 (zlen d)
        else Ok 0) ;;
  r <- (if from_right then
          scan_down (scan_fuel d) (byte_test d (fun c => negb (p c))) (zlen d - 1) l
        else Ok (zlen d - 1)) ;;
  Ok (l, r + 1).

(** matchchar (BytesType.cpp:825-834); no [values] stands for whitespace. *)
Definition bmatch (values : option bytes) (c : Z) : bool :=
  match values with
  | None => is_space c
  | Some v => existsb (fun w => c =? w) (bdata v)
  end.

(** BytesType::strip (BytesType.cpp:836-876) *)
Definition bytes_strip (x : bytes) (values : option bytes) (from_left from_right : bool)
    : result bytes :=
  match x with
  | None => Ok None
  | Some d =>
      ' (l, r) <- strip_bounds d (bmatch values) from_left from_right ;;
      Ok (if l =? r then None
          else if (l =? 0) && (r =? zlen d) then x
          else Some (sub_list d l r))
  end.

(** StringType::strip and StringType::strip_whitespace (StringType.cpp:1085-1185); [space] is the
    table of whitespace code points. *)
Definition str_strip (space : Z -> bool) (x : str) (values : option str)
    (from_left from_right : bool) : result str :=
  match x with
  | None => Ok None
  | Some d =>
      match values with
      | Some v =>
          if slen v =? 0 then Ok x
          else
            ' (l, r) <- strip_bounds (codepoints d) (fun c => existsb (fun w => c =? w) (sdata v))
                          from_left from_right ;;
            Ok (if l =? r then None
                else if (l =? 0) && (r =? slen x) then x else getsubstr x l r)
      | None =>
          ' (l, r) <- strip_bounds (codepoints d) space from_left from_right ;;
          Ok (if l =? r then None
              else if (l =? 0) && (r =? slen x) then x else getsubstr x l r)
      end
  end.

(** ** center, ljust, rjust *)

(** bytes_center (bytes_wrapper.py:817-837) and strCenter (string_wrapper.py:253-259) *)
Definition center_text {T} (o : text_ops T) (x : T) (width : Z) (fill : T) : T :=
  if width <=? t_len o x then x
  else
    let l := (width - t_len o x) / 2 in
    let r := (width - t_len o x) - l in
    t_concat o (t_concat o (t_mult o fill l) x) (t_mult o fill r).

(** bytes_ljust (bytes_wrapper.py:840-858) and strLjust (string_wrapper.py:262-266) *)
Definition ljust_text {T} (o : text_ops T) (x : T) (width : Z) (fill : T) : T :=
  if width <=? t_len o x then x
  else t_concat o x (t_mult o fill (width - t_len o x)).

(** bytes_rjust (bytes_wrapper.py:861-879) and strRjust (string_wrapper.py:269-273) *)
Definition rjust_text {T} (o : text_ops T) (x : T) (width : Z) (fill : T) : T :=
  if width <=? t_len o x then x
  else t_concat o (t_mult o fill (width - t_len o x)) x.

(** The calls: a fill that is not one element long is a TypeError; the default is a blank
    (bytes_wrapper.py:1599-1625, string_wrapper.py:971-997). *)
Definition justify_call {T} (o : text_ops T) (f : T -> Z -> T -> T) (x : T) (width : Z)
    (fill : option T) : result T :=
  match fill with
  | None => Ok (f x width (t_lit o [32]))
  | Some c => if t_len o c =? 1 then Ok (f x width c) else Err TypeError
  end.

Definition bytes_center := justify_call bytes_ops (center_text bytes_ops).
Definition bytes_ljust := justify_call bytes_ops (ljust_text bytes_ops).
Definition bytes_rjust := justify_call bytes_ops (rjust_text bytes_ops).
Definition str_center := justify_call str_ops (center_text str_ops).
Definition str_ljust := justify_call str_ops (ljust_text str_ops).
Definition str_rjust := justify_call str_ops (rjust_text str_ops).

(** ** expandtabs *)

(** The loop of bytes_expandtabs (bytes_wrapper.py:897-910) and strExpandtabs
    (string_wrapper.py:279-292) over the positions from [i] on, [n] of them *)
Fixpoint tabs_loop {T} (o : text_ops T) (n : nat) (x : T) (tabsize i col last : Z)
    (out : list T) : result (Z * list T) :=
  match n with
  | O => Ok (last, out)
  | S n =>
      tab <- t_at_is o x i 9 ;;
      if (tab : bool) then
        let spaces := if 0 <? tabsize then tabsize - col mod tabsize else 0 in
        tabs_loop o n x tabsize (i + 1) 0 (i + 1)
          (out ++ [t_slice o x last i; t_mult o (t_lit o [32]) spaces])
      else
        nl <- t_at_is o x i 10 ;;
        cr <- t_at_is o x i 13 ;;
        tabs_loop o n x tabsize (i + 1) (if (nl : bool) || (cr : bool) then 0 else col + 1)
          last out
  end.

(** bytes_expandtabs (bytes_wrapper.py:882-912) and strExpandtabs (string_wrapper.py:276-294) *)
Definition expandtabs_text {T} (o : text_ops T) (x : T) (tabsize : Z) : result T :=
  ' (last, out) <- tabs_loop o (Z.to_nat (t_len o x)) x tabsize 0 0 0 [] ;;
  Ok (t_join o (t_lit o []) (out ++ [t_slice o x last (t_len o x)])).

Definition bytes_expandtabs := expandtabs_text bytes_ops.
Definition str_expandtabs := expandtabs_text str_ops.

(** ** zfill *)

(** bytes_zfill (bytes_wrapper.py:915-943) and strZfill (string_wrapper.py:297-314);
    the subtraction is one of 64-bit integers. *)
Definition zfill_text {T} (o : text_ops T) (x : T) (width : Z) : result T :=
  sign <- (if t_len o x =? 0 then Ok false
           else
             plus <- t_at_is o x 0 43 ;;
             minus <- t_at_is o x 0 45 ;;
             Ok ((plus : bool) || (minus : bool))) ;;
  let fill := wrap_s 64 (width - t_len o x) in
  Ok (t_join o (t_lit o [])
        ((if (sign : bool) then [t_slice o x 0 1] else [])
         ++ (if 0 <? fill then [t_mult o (t_lit o [48]) fill] else [])
         ++ [if (sign : bool) then t_slice o x 1 (t_len o x) else x])).

Definition bytes_zfill := zfill_text bytes_ops.
Definition str_zfill := zfill_text str_ops.
