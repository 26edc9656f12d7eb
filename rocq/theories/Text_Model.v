(** The [bytes] and [str] values of compiled code: their layouts, lengths, indexing, slicing,
    concatenation, repetition and comparison.

    A value is a pointer to a layout, or the null pointer, which stands for the empty text; a
    layout that holds no element stands for the empty text as well.  The reference count and
    the cached hash are not modelled.  The element counts are kept as unbounded integers,
    although the C++ stores them in 32 bits: texts of 2^31 elements or more are out of reach
    of this model. *)
From Coq Require Import List ZArith Bool.
From Verif Require Import Base PyList.
Import ListNotations.
Open Scope Z_scope.
Open Scope result_scope.

Definition zlen {A} (l : list A) : Z := Z.of_nat (length l).

(** BytesType::layout* (BytesType.hpp:24-32): null, or the bytes. *)
Definition bytes : Type := option (list Z).

Definition bdata (b : bytes) : list Z := match b with Some l => l | None => [] end.

(** BytesWrapper.convert_len_native (bytes_wrapper.py:1657-1672), BytesType::count
    (BytesType.cpp:438-444) *)
Definition blen (b : bytes) : Z := zlen (bdata b).

(** StringType::layout* (StringType.hpp:24-37): null, or the number of bytes each code point
    takes (1, 2 or 4) together with the code points. *)
Record slayout := mk_slayout { bytes_per_codepoint : Z; codepoints : list Z }.
Definition str : Type := option slayout.

Definition sdata (s : str) : list Z := match s with Some l => codepoints l | None => [] end.

(** StringWrapper.convert_len_native (string_wrapper.py:638-645), StringType::countStatic
    (StringType.cpp:1616-1622) *)
Definition slen (s : str) : Z := zlen (sdata s).

(** StringType::bytes_per_codepoint (StringType.cpp:1604-1610) *)
Definition swidth (s : str) : Z :=
  match s with Some l => bytes_per_codepoint l | None => 1 end.

(** [x[i]] of bytes in compiled code: BytesWrapper.convert_getitem (bytes_wrapper.py:1188-1228) *)
Definition bytes_getitem (x : bytes) (i : Z) : result Z := py_get (bdata x) i.

(** A read of element [i] of a C array that holds the list: outside the array the behaviour is
    undefined. *)
Definition cread (l : list Z) (i : Z) : result Z :=
  if (0 <=? i) && (i <? zlen l) then Ok (nth (Z.to_nat i) l 0) else Err UndefinedBehaviour.

(** StringType::getpoint (StringType.cpp:440-448): the widths only decide how the element is
    fetched. *)
Definition getpoint (s : str) (i : Z) : result Z := cread (sdata s) i.

(** The elements [a, b) of a list *)
Definition sub_list {A} (l : list A) (a b : Z) : list A :=
  firstn (Z.to_nat (b - a)) (skipn (Z.to_nat a) l).

(** [x[start:stop]] of bytes: nativepython_runtime_bytes_getslice_int64 (_runtime.cpp:741-770) *)
Definition bytes_getslice (x : bytes) (start stop : Z) : bytes :=
  match x with
  | None => None
  | Some l =>
      let len := zlen l in
      let start := if start <? 0 then start + len else start in
      let stop := if stop <? 0 then stop + len else stop in
      let start := if start <? 0 then 0 else start in
      let stop := if stop <? 0 then 0 else stop in
      let start := if len <? start then len else start in
      let stop := if len <? stop then len else stop in
      if stop <=? start then None else Some (sub_list l start stop)
  end.

(** [x[start:stop]] of str: StringType::getsubstr (StringType.cpp:1031-1068) *)
Definition getsubstr (x : str) (start stop : Z) : str :=
  match x with
  | None => None
  | Some l =>
      let n := zlen (codepoints l) in
      let start := if start <? 0 then (if start + n <? 0 then 0 else start + n) else start in
      let stop := if stop <? 0 then (if stop + n <? 0 then 0 else stop + n) else stop in
      let '(start, stop) :=
        if (stop <? start) || (n <? start) then (0, 0) else (start, stop) in
      let stop := if n <? stop then n else stop in
      if stop <=? start then None
      else Some (mk_slayout (bytes_per_codepoint l) (sub_list (codepoints l) start stop))
  end.

(** [x + y] of bytes: BytesType::concatenate (BytesType.cpp:369-391) *)
Definition bytes_concat (x y : bytes) : bytes :=
  match x, y with
  | None, None => None
  | Some _, None => x
  | None, Some _ => y
  | Some a, Some b => Some (a ++ b)
  end.

(** StringType::upgradeCodePoints (StringType.cpp:21-56): the same code points, stored in wider
    cells. *)
Definition upgrade_code_points (x : str) (w : Z) : str :=
  match x with None => None | Some l => Some (mk_slayout w (codepoints l)) end.

(** [x + y] of str: StringType::concatenate (StringType.cpp:58-103); the operand with the
    narrower cells is widened first. *)
Definition str_concat (x y : str) : str :=
  match x, y with
  | None, None => None
  | Some _, None => x
  | None, Some _ => y
  | Some a, Some b =>
      Some (mk_slayout (Z.max (bytes_per_codepoint a) (bytes_per_codepoint b))
                       (codepoints a ++ codepoints b))
  end.

(** [l] written [n] times *)
Fixpoint repeat_list {A} (n : nat) (l : list A) : list A :=
  match n with O => [] | S n => l ++ repeat_list n l end.

(** [x * n] of bytes: BytesType::mult (BytesType.cpp:878-899) *)
Definition bytes_mult (x : bytes) (n : Z) : bytes :=
  match x with
  | None => None
  | Some l => if n <=? 0 then None else Some (repeat_list (Z.to_nat n) l)
  end.

(** [x * n] of str: StringType::mult (StringType.cpp:1947-1968) *)
Definition str_mult (x : str) (n : Z) : str :=
  match x with
  | None => None
  | Some l =>
      if n <=? 0 then None
      else Some (mk_slayout (bytes_per_codepoint l) (repeat_list (Z.to_nat n) (codepoints l)))
  end.

(** Type::byteCompare (Type.cpp) and typedArrayCompare (StringType.cpp:1338-1351): the first
    difference within the common length decides. *)
Fixpoint array_compare (n : nat) (l r : list Z) : Z :=
  match n, l, r with
  | S n, a :: l, b :: r =>
      if a <? b then -1 else if b <? a then 1 else array_compare n l r
  | _, _, _ => 0
  end.

(** The order of two arrays and their lengths: the end of BytesType::cmpStatic
    (BytesType.cpp:83-96) and StringType::cmpStatic (StringType.cpp:1420-1461) *)
Definition cmp_data (l r : list Z) : Z :=
  let res := array_compare (Nat.min (length l) (length r)) l r in
  if negb (res =? 0) then res
  else if zlen l <? zlen r then -1 else if zlen r <? zlen l then 1 else 0.

(** BytesType::cmpStatic (BytesType.cpp:72-97), through which compiled code compares bytes
    (bytes_wrapper.py:1058-1107) *)
Definition bytes_cmp (x y : bytes) : Z :=
  match x, y with
  | None, None => 0
  | None, Some _ => -1
  | Some _, None => 1
  | Some l, Some r => cmp_data l r
  end.

(** StringType::cmpStatic (StringType.cpp:1409-1461) *)
Definition str_cmp (x y : str) : Z :=
  match x, y with
  | None, None => 0
  | None, Some _ => -1
  | Some _, None => 1
  | Some l, Some r => cmp_data (codepoints l) (codepoints r)
  end.

(** StringType::cmpStaticEq (StringType.cpp:1363-1407), through which compiled code decides
    [==] (nativepython_runtime_string_eq, _runtime.cpp:456-462) *)
Definition str_eq (x y : str) : bool :=
  match x, y with
  | None, None => true
  | None, Some _ => false
  | Some _, None => false
  | Some l, Some r =>
      if negb (zlen (codepoints l) =? zlen (codepoints r)) then false
      else array_compare (Nat.min (length (codepoints l)) (length (codepoints r)))
                         (codepoints l) (codepoints r) =? 0
  end.

(** [==] on bytes (bytes_wrapper.py:1080-1084) *)
Definition bytes_eq (x y : bytes) : bool := bytes_cmp x y =? 0.
