(** Searching in the bytes and str values of compiled code. *)
From Coq Require Import List ZArith Bool.
From Verif Require Import Base PyList Text_Model.
Import ListNotations.
Open Scope Z_scope.
Open Scope result_scope.

(** ** Bytes: compiled Python code (bytes_wrapper.py) *)

(** The adjustment of the bounds at the head of bytes_count, bytes_find, bytes_rfind and their
    variants (bytes_wrapper.py:429-438, 518-527, 602-611) *)
Definition adjust_start (n start : Z) : Z :=
  let start := if start <? 0 then start + n else start in
  if start <? 0 then 0 else start.

Definition adjust_end (n stop : Z) : Z :=
  let stop := if stop <? 0 then stop + n else stop in
  let stop := if stop <? 0 then 0 else stop in
  if n <? stop then n else stop.

(** The inner loop of bytes_find (bytes_wrapper.py:537-543), and of bytes_rfind and bytes_count:
    does [sub] stand at [index]? *)
Fixpoint match_loop (fuel : nat) (x sub : bytes) (index subindex : Z) : result bool :=
  match fuel with
  | O => Err OutOfFuel
  | S fuel =>
      if subindex <? blen sub then
        a <- bytes_getitem x (index + subindex) ;;
        b <- bytes_getitem sub subindex ;;
        if negb (a =? b) then Ok false
        else
          let subindex := subindex + 1 in
          if subindex =? blen sub then Ok true
          else match_loop fuel x sub index subindex
      else Ok false
  end.

Definition matches_at (x sub : bytes) (index : Z) : result bool :=
  match_loop (S (length (bdata sub))) x sub index 0.

(** The outer loop of bytes_find (bytes_wrapper.py:535-545) *)
Fixpoint find_loop (fuel : nat) (x sub : bytes) (index stop : Z) : result Z :=
  match fuel with
  | O => Err OutOfFuel
  | S fuel =>
      if index <? stop then
        m <- matches_at x sub index ;;
        if (m : bool) then Ok index else find_loop fuel x sub (index + 1) stop
      else Ok (-1)
  end.

(** bytes_find (bytes_wrapper.py:503-545) *)
Definition bytes_find (x sub : bytes) (start stop : Z) : result Z :=
  let start := adjust_start (blen x) start in
  let stop := adjust_end (blen x) stop in
  let len_sub := blen sub in
  if len_sub =? 0 then
    if (blen x <? start) || (stop <? start) then Ok (-1) else Ok start
  else
    let limit := stop - len_sub + 1 in
    find_loop (S (Z.to_nat (limit - start))) x sub start limit.

(** The loop of bytes_find_single (bytes_wrapper.py:579-584) *)
Fixpoint find_single_loop (fuel : nat) (x : bytes) (sub index stop : Z) : result Z :=
  match fuel with
  | O => Err OutOfFuel
  | S fuel =>
      if index <? stop then
        a <- bytes_getitem x index ;;
        if a =? sub then Ok index else find_single_loop fuel x sub (index + 1) stop
      else Ok (-1)
  end.

(** bytes_find_single (bytes_wrapper.py:548-584) *)
Definition bytes_find_single (x : bytes) (sub start stop : Z) : result Z :=
  if (sub <? 0) || (255 <? sub) then Err ValueError
  else
    let start := adjust_start (blen x) start in
    let stop := adjust_end (blen x) stop in
    find_single_loop (S (Z.to_nat (stop - start))) x sub start stop.

(** The outer loop of bytes_rfind (bytes_wrapper.py:619-629) *)
Fixpoint rfind_loop (fuel : nat) (x sub : bytes) (index start : Z) : result Z :=
  match fuel with
  | O => Err OutOfFuel
  | S fuel =>
      if start <=? index then
        m <- matches_at x sub index ;;
        if (m : bool) then Ok index else rfind_loop fuel x sub (index - 1) start
      else Ok (-1)
  end.

(** bytes_rfind (bytes_wrapper.py:587-629) *)
Definition bytes_rfind (x sub : bytes) (start stop : Z) : result Z :=
  let start := adjust_start (blen x) start in
  let stop := adjust_end (blen x) stop in
  let len_sub := blen sub in
  if len_sub =? 0 then
    if (blen x <? start) || (stop <? start) then Ok (-1) else Ok stop
  else
    let index := stop - len_sub in
    rfind_loop (S (Z.to_nat (index - start + 1))) x sub index start.

(** The loop of bytes_rfind_single (bytes_wrapper.py:663-668) *)
Fixpoint rfind_single_loop (fuel : nat) (x : bytes) (sub index start : Z) : result Z :=
  match fuel with
  | O => Err OutOfFuel
  | S fuel =>
      if start <=? index then
        a <- bytes_getitem x index ;;
        if a =? sub then Ok index else rfind_single_loop fuel x sub (index - 1) start
      else Ok (-1)
  end.

(** bytes_rfind_single (bytes_wrapper.py:632-668).  The annotation of its second parameter is
    [bytes], although it receives an integer; call_py_function converts the arguments as they
    are, and the annotation is left out here. *)
Definition bytes_rfind_single (x : bytes) (sub start stop : Z) : result Z :=
  if (sub <? 0) || (255 <? sub) then Err ValueError
  else
    let start := adjust_start (blen x) start in
    let stop := adjust_end (blen x) stop in
    rfind_single_loop (S (Z.to_nat (stop - start))) x sub (stop - 1) start.

(** bytes_index, bytes_rindex and the variants that look for a single byte
    (bytes_wrapper.py:671-764) *)
Definition or_value_error (r : result Z) : result Z :=
  ret <- r ;; if ret =? -1 then Err ValueError else Ok ret.

Definition bytes_index (x sub : bytes) (start stop : Z) : result Z :=
  or_value_error (bytes_find x sub start stop).
Definition bytes_rindex (x sub : bytes) (start stop : Z) : result Z :=
  or_value_error (bytes_rfind x sub start stop).
Definition bytes_index_single (x : bytes) (sub start stop : Z) : result Z :=
  or_value_error (bytes_find_single x sub start stop).
Definition bytes_rindex_single (x : bytes) (sub start stop : Z) : result Z :=
  or_value_error (bytes_rfind_single x sub start stop).

(** The outer loop of bytes_count (bytes_wrapper.py:449-460): after a match the index moves on
    by the length of the subsequence. *)
Fixpoint count_loop (fuel : nat) (x sub : bytes) (index stop count : Z) : result Z :=
  match fuel with
  | O => Err OutOfFuel
  | S fuel =>
      if index <? stop then
        m <- matches_at x sub index ;;
        if (m : bool)
        then count_loop fuel x sub (index + (blen sub - 1) + 1) stop (count + 1)
        else count_loop fuel x sub (index + 1) stop count
      else Ok count
  end.

(** bytes_count (bytes_wrapper.py:413-460) *)
Definition bytes_count (x sub : bytes) (start stop : Z) : result Z :=
  let start := adjust_start (blen x) start in
  let stop := adjust_end (blen x) stop in
  let len_sub := blen sub in
  if len_sub =? 0 then
    if blen x <? start then Ok 0
    else
      let count := stop - start + 1 in
      Ok (if count <? 0 then 0 else count)
  else
    let limit := stop - len_sub + 1 in
    count_loop (S (Z.to_nat (limit - start))) x sub start limit 0.

(** The loop of bytes_count_single (bytes_wrapper.py:494-500) *)
Fixpoint count_single_loop (fuel : nat) (x : bytes) (sub index stop count : Z) : result Z :=
  match fuel with
  | O => Err OutOfFuel
  | S fuel =>
      if index <? stop then
        a <- bytes_getitem x index ;;
        count_single_loop fuel x sub (index + 1) stop (if a =? sub then count + 1 else count)
      else Ok count
  end.

(** bytes_count_single (bytes_wrapper.py:463-500) *)
Definition bytes_count_single (x : bytes) (sub start stop : Z) : result Z :=
  if (sub <? 0) || (255 <? sub) then Err ValueError
  else
    let start := adjust_start (blen x) start in
    let stop := adjust_end (blen x) stop in
    count_single_loop (S (Z.to_nat (stop - start))) x sub start stop 0.

(** The loop over the prefix or the suffix shared by bytes_startswith, bytes_endswith and their
    variants (bytes_wrapper.py:308-313, 343-349, 367-372, 405-410) *)
Fixpoint prefix_loop (x : bytes) (prefix : list Z) (index : Z) : result bool :=
  match prefix with
  | [] => Ok true
  | i :: prefix =>
      a <- bytes_getitem x index ;;
      if negb (a =? i) then Ok false else prefix_loop x prefix (index + 1)
  end.

(** bytes_startswith (bytes_wrapper.py:293-313) *)
Definition bytes_startswith (x prefix : bytes) : result bool :=
  if blen x <? blen prefix then Ok false else prefix_loop x (bdata prefix) 0.

(** The adjustment of the bounds in bytes_startswith_range and bytes_endswith_range
    (bytes_wrapper.py:331-340, 390-399): here an end that was negative is not compared with
    the length again. *)
Definition range_end (n stop : Z) : Z :=
  if stop <? 0 then (if stop + n <? 0 then 0 else stop + n)
  else if n <? stop then n else stop.

(** bytes_startswith_range (bytes_wrapper.py:316-349) *)
Definition bytes_startswith_range (x prefix : bytes) (start stop : Z) : result bool :=
  let start := adjust_start (blen x) start in
  let stop := range_end (blen x) stop in
  if stop - start <? blen prefix then Ok false else prefix_loop x (bdata prefix) start.

(** bytes_endswith (bytes_wrapper.py:352-372) *)
Definition bytes_endswith (x suffix : bytes) : result bool :=
  let index := blen x - blen suffix in
  if index <? 0 then Ok false else prefix_loop x (bdata suffix) index.

(** bytes_endswith_range (bytes_wrapper.py:375-410) *)
Definition bytes_endswith_range (x suffix : bytes) (start stop : Z) : result bool :=
  let start := adjust_start (blen x) start in
  let stop := range_end (blen x) stop in
  if stop - start <? blen suffix then Ok false
  else
    let index := stop - blen suffix in
    if index <? 0 then Ok false else prefix_loop x (bdata suffix) index.

(** The calls as the user writes them: the bounds may be left out, and then they are 0 and the
    length (BytesWrapper.convert_method_call, bytes_wrapper.py:1376-1418). *)
Definition with_bounds {A} (n : Z) (f : Z -> Z -> A) (start stop : option Z) : A :=
  f (match start with Some v => v | None => 0 end) (match stop with Some v => v | None => n end).

Definition bytes_startswith_call (x prefix : bytes) (start stop : option Z) : result bool :=
  match start with
  | None => bytes_startswith x prefix
  | Some _ => with_bounds (blen x) (bytes_startswith_range x prefix) start stop
  end.

Definition bytes_endswith_call (x suffix : bytes) (start stop : option Z) : result bool :=
  match start with
  | None => bytes_endswith x suffix
  | Some _ => with_bounds (blen x) (bytes_endswith_range x suffix) start stop
  end.

(** [sub in x] of bytes (bytes_wrapper.py:1109-1116) *)
Definition bytes_contains (x sub : bytes) : result bool :=
  r <- bytes_find x sub 0 (blen x) ;; Ok (0 <=? r).

(** ** Strings: C++ code (StringType.cpp) and compiled Python code (string_wrapper.py) *)

(** The loop over [j] in StringType::find (StringType.cpp:491-497), StringType::rfind and
    StringType::count; [n] is the number of code points of [sub] still to compare. *)
Fixpoint smatch_loop (n : nat) (l sub : str) (i j : Z) : result bool :=
  match n with
  | O => Ok true
  | S n =>
      a <- getpoint l (i + j) ;;
      b <- getpoint sub j ;;
      if negb (a =? b) then Ok false else smatch_loop n l sub i (j + 1)
  end.

Definition smatches_at (l sub : str) (i : Z) : result bool :=
  smatch_loop (length (sdata sub)) l sub i 0.

(** The test of one position: the loop of the fast path, taken when both texts have cells of one
    byte and [sub] is a single code point (StringType.cpp:479-487), or the general one. *)
Definition fast_path (l sub : str) : bool :=
  (swidth l =? 1) && (swidth sub =? 1) && (slen sub =? 1).

Definition test_at (l sub : str) (i : Z) : result bool :=
  if fast_path l sub then
    a <- cread (sdata l) i ;; b <- cread (sdata sub) 0 ;; Ok (a =? b)
  else smatches_at l sub i.

(** The loops over [i] of StringType::find (StringType.cpp:483-501) *)
Fixpoint sfind_loop (fuel : nat) (l sub : str) (i stop : Z) : result Z :=
  match fuel with
  | O => Err OutOfFuel
  | S fuel =>
      if i <? stop then
        m <- test_at l sub i ;;
        if (m : bool) then Ok i else sfind_loop fuel l sub (i + 1) stop
      else Ok (-1)
  end.

(** The adjustment of the bounds in StringType::find, rfind and count
    (StringType.cpp:456-463, 510-517, 564-571) *)
Definition sadjust (n v : Z) : Z :=
  if v <? 0 then (if v + n <? 0 then 0 else v + n) else v.

(** The test before the loops (StringType.cpp:476, 530, 586) *)
Definition no_room (l sub : str) (start stop : Z) : bool :=
  (start <? 0) || (stop <? 0) || (stop <=? start) || (slen l <? slen sub)
  || (slen l - slen sub <? start).

(** StringType::find (StringType.cpp:450-502) *)
Definition str_find (l sub : str) (start stop : Z) : result Z :=
  if slen l =? 0 then
    Ok (if slen sub =? 0 then (if 0 <? start then -1 else 0) else -1)
  else
    let start := sadjust (slen l) start in
    let stop := sadjust (slen l) stop in
    if (stop <? start) || (slen l <? start) then Ok (-1)
    else if slen sub =? 0 then Ok (if 0 <=? start then start else 0)
    else
      let stop := if slen l <? stop then slen l else stop in
      let stop := stop - (slen sub - 1) in
      if no_room l sub start stop then Ok (-1)
      else sfind_loop (S (Z.to_nat (stop - start))) l sub start stop.

(** The loops over [i] of StringType::rfind (StringType.cpp:537-555) *)
Fixpoint srfind_loop (fuel : nat) (l sub : str) (i start : Z) : result Z :=
  match fuel with
  | O => Err OutOfFuel
  | S fuel =>
      if start <=? i then
        m <- test_at l sub i ;;
        if (m : bool) then Ok i else srfind_loop fuel l sub (i - 1) start
      else Ok (-1)
  end.

(** StringType::rfind (StringType.cpp:504-556) *)
Definition str_rfind (l sub : str) (start stop : Z) : result Z :=
  if slen l =? 0 then
    Ok (if slen sub =? 0 then (if 0 <? start then -1 else 0) else -1)
  else
    let start := sadjust (slen l) start in
    let stop := sadjust (slen l) stop in
    if (stop <? start) || (slen l <? start) then Ok (-1)
    else
      let stop := if slen l <? stop then slen l else stop in
      if slen sub =? 0 then Ok stop
      else
        let stop := stop - (slen sub - 1) in
        if no_room l sub start stop then Ok (-1)
        else srfind_loop (S (Z.to_nat (stop - start))) l sub (stop - 1) start.

(** The loops over [i] of StringType::count (StringType.cpp:593-613); the fast path does not
    skip, because its [sub] has length one. *)
Fixpoint scount_loop (fuel : nat) (l sub : str) (i stop count : Z) : result Z :=
  match fuel with
  | O => Err OutOfFuel
  | S fuel =>
      if i <? stop then
        m <- test_at l sub i ;;
        if (m : bool) then
          let i := if fast_path l sub then i else i + (slen sub - 1) in
          scount_loop fuel l sub (i + 1) stop (count + 1)
        else scount_loop fuel l sub (i + 1) stop count
      else Ok count
  end.

(** StringType::count (StringType.cpp:558-616) *)
Definition str_count (l sub : str) (start stop : Z) : result Z :=
  if slen l =? 0 then Ok 0
  else
    let start := sadjust (slen l) start in
    let stop := sadjust (slen l) stop in
    if (stop <? start) || (slen l <? start) then Ok 0
    else
      let stop := if slen l <? stop then slen l else stop in
      if slen sub =? 0 then
        if slen l <? start then Ok 0
        else Ok (if 0 <=? stop - start + 1 then stop - start + 1 else 0)
      else
        let stop := stop - (slen sub - 1) in
        if no_room l sub start stop then Ok 0
        else scount_loop (S (Z.to_nat (stop - start))) l sub start stop 0.

(** nativepython_runtime_string_index, nativepython_runtime_string_rindex
    (_runtime.cpp:537-559) *)
Definition str_index (l sub : str) (start stop : Z) : result Z :=
  or_value_error (str_find l sub start stop).
Definition str_rindex (l sub : str) (start stop : Z) : result Z :=
  or_value_error (str_rfind l sub start stop).

(** strStartswith (string_wrapper.py:59-62) *)
Definition str_startswith (s prefix : str) : bool :=
  if slen prefix =? 0 then true else str_eq (getsubstr s 0 (slen prefix)) prefix.

(** strRangeStartswith (string_wrapper.py:65-80) *)
Definition str_range_startswith (s prefix : str) (start stop : Z) : bool :=
  if slen s <? start then false
  else
    let start := sadjust (slen s) start in
    let stop := sadjust (slen s) stop in
    if slen prefix =? 0 then (start <=? 0) || (start <=? stop)
    else if stop <? start + slen prefix then false
    else str_eq (getsubstr s start (start + slen prefix)) prefix.

(** strEndswith (string_wrapper.py:119-123): the upper bound left out of the slice is the
    length (string_wrapper.py:571-572). *)
Definition str_endswith (s suffix : str) : bool :=
  if slen suffix =? 0 then true
  else str_eq (getsubstr s (- slen suffix) (slen s)) suffix.

(** strRangeEndswith (string_wrapper.py:126-144) *)
Definition str_range_endswith (s suffix : str) (start stop : Z) : bool :=
  if slen s <? start then false
  else
    let stop := if slen s <? stop then slen s else stop in
    let start := sadjust (slen s) start in
    let stop := sadjust (slen s) stop in
    if slen suffix =? 0 then (start <=? 0) || (start <=? stop)
    else if stop - slen suffix <? start then false
    else str_eq (getsubstr s (stop - slen suffix) stop) suffix.

(** The calls as the user writes them (StringWrapper.convert_method_call,
    string_wrapper.py:777-790, 806-838) *)
Definition str_startswith_call (s prefix : str) (start stop : option Z) : bool :=
  match start with
  | None => str_startswith s prefix
  | Some _ => with_bounds (slen s) (str_range_startswith s prefix) start stop
  end.

Definition str_endswith_call (s suffix : str) (start stop : option Z) : bool :=
  match start with
  | None => str_endswith s suffix
  | Some _ => with_bounds (slen s) (str_range_endswith s suffix) start stop
  end.

(** [sub in x] of str (string_wrapper.py:515-519) *)
Definition str_contains (x sub : str) : result bool :=
  r <- str_find x sub 0 (slen x) ;; Ok (0 <=? r).
