(** Splitting and joining the bytes and str values of compiled code. *)
From Coq Require Import List ZArith Bool.
From Verif Require Import Base PyList Text_Model TextSearch_Model.
Import ListNotations.
Open Scope Z_scope.
Open Scope result_scope.

(** ** Scanning *)

(** [while (match < limit && !test(match)) match++] *)
Fixpoint scan_up (fuel : nat) (test : Z -> result bool) (m limit : Z) : result Z :=
  match fuel with
  | O => Err OutOfFuel
  | S fuel =>
      if m <? limit then
        t <- test m ;; if (t : bool) then Ok m else scan_up fuel test (m + 1) limit
      else Ok m
  end.

(** [while (match >= limit && !test(match)) match--] *)
Fixpoint scan_down (fuel : nat) (test : Z -> result bool) (m limit : Z) : result Z :=
  match fuel with
  | O => Err OutOfFuel
  | S fuel =>
      if limit <=? m then
        t <- test m ;; if (t : bool) then Ok m else scan_down fuel test (m - 1) limit
      else Ok m
  end.

(** Enough steps for a scan over the whole text *)
Definition scan_fuel (d : list Z) : nat := S (length d).

(** ** Bytes (BytesType.cpp) *)

(** isspace of the C library in the "C" locale, and the whitespace that BytesType::rsplit spells
    out (BytesType.cpp:221-227) *)
Definition is_space (c : Z) : bool := ((9 <=? c) && (c <=? 13)) || (c =? 32).

Definition byte_test (d : list Z) (p : Z -> bool) (i : Z) : result bool :=
  c <- cread d i ;; Ok (p c).

Fixpoint same_list (a b : list Z) : bool :=
  match a, b with
  | [], [] => true
  | x :: a, y :: b => (x =? y) && same_list a b
  | _, _ => false
  end.

(** memcmp(d + i, s, |s|) == 0 *)
Definition mem_equal (d s : list Z) (i : Z) : result bool :=
  if (0 <=? i) && (i + zlen s <=? zlen d) then Ok (same_list (sub_list d i (i + zlen s)) s)
  else Err UndefinedBehaviour.

(** createFromPtr (BytesType.cpp:393-402) on the bytes [a, b): the layout is never null. *)
Definition piece_of (d : list Z) (a b : Z) : bytes := Some (sub_list d a b).

Definition sep_len (sep : option (list Z)) : Z := match sep with Some s => zlen s | None => 1 end.
Definition has_sep (sep : option (list Z)) : bool := match sep with Some _ => true | None => false end.

(** The search for the next separator in BytesType::split (BytesType.cpp:130-146) *)
Definition bsplit_match (d : list Z) (sep : option (list Z)) (cur : Z) : result Z :=
  match sep with
  | Some s =>
      if zlen s =? 1 then
        scan_up (scan_fuel d) (byte_test d (fun c => c =? nth 0 s 0)) cur (zlen d)
      else scan_up (scan_fuel d) (mem_equal d s) cur (zlen d - zlen s + 1)
  | None => scan_up (scan_fuel d) (byte_test d is_space) cur (zlen d)
  end.

(** The main loop of BytesType::split (BytesType.cpp:129-168): the position at which it leaves
    the text, and the pieces so far *)
Fixpoint bsplit_loop (fuel : nat) (d : list Z) (sep : option (list Z)) (max cur count : Z)
    (out : list bytes) : result (Z * list bytes) :=
  match fuel with
  | O => Err OutOfFuel
  | S fuel =>
      if cur <? zlen d then
        m <- bsplit_match d sep cur ;;
        if zlen d <? m + sep_len sep then Ok (cur, out)
        else if has_sep sep || negb (m =? cur) then
          let out := out ++ [piece_of d cur m] in
          let cur := m + sep_len sep in
          let count := count + 1 in
          if (0 <=? max) && (max <=? count) then Ok (cur, out)
          else bsplit_loop fuel d sep max cur count out
        else bsplit_loop fuel d sep max (cur + 1) count out
      else Ok (cur, out)
  end.

(** BytesType::split (BytesType.cpp:103-177) *)
Definition bsplit (d : list Z) (sep : option (list Z)) (max : Z) : result (list bytes) :=
  if max =? 0 then
    cur <- (match sep with
            | None => scan_up (scan_fuel d) (byte_test d (fun c => negb (is_space c))) 0 (zlen d)
            | Some _ => Ok 0
            end) ;;
    Ok (if negb (cur =? zlen d) then [piece_of d cur (zlen d)] else [])
  else
    ' (cur, out) <- bsplit_loop (S (length d)) d sep max 0 0 [] ;;
    Ok (if has_sep sep || negb (zlen d =? cur) then out ++ [piece_of d cur (zlen d)] else out).

(** The search in BytesType::rsplit (BytesType.cpp:208-232) *)
Definition brsplit_match (d : list Z) (sep : option (list Z)) (cur : Z) : result Z :=
  match sep with
  | Some s =>
      if zlen s =? 1 then
        scan_down (scan_fuel d) (byte_test d (fun c => c =? nth 0 s 0)) cur 0
      else scan_down (scan_fuel d) (fun m => mem_equal d s (m - zlen s + 1)) cur (zlen s - 1)
  | None => scan_down (scan_fuel d) (byte_test d is_space) cur 0
  end.

(** The main loop of BytesType::rsplit (BytesType.cpp:207-253) *)
Fixpoint brsplit_loop (fuel : nat) (d : list Z) (sep : option (list Z)) (max cur count : Z)
    (out : list bytes) : result (Z * list bytes) :=
  match fuel with
  | O => Err OutOfFuel
  | S fuel =>
      if 0 <=? cur then
        m <- brsplit_match d sep cur ;;
        if m - sep_len sep + 1 <? 0 then Ok (cur, out)
        else if has_sep sep || negb (m =? cur) then
          let out := out ++ [piece_of d (m + 1) (cur + 1)] in
          let cur := m - sep_len sep in
          let count := count + 1 in
          if (0 <=? max) && (max <=? count) then Ok (cur, out)
          else brsplit_loop fuel d sep max cur count out
        else brsplit_loop fuel d sep max (cur - 1) count out
      else Ok (cur, out)
  end.

(** BytesType::rsplit (BytesType.cpp:181-260) *)
Definition brsplit (d : list Z) (sep : option (list Z)) (max : Z) : result (list bytes) :=
  if max =? 0 then
    cur <- (match sep with
            | None => scan_down (scan_fuel d) (byte_test d (fun c => negb (is_space c)))
                        (zlen d - 1) 0
            | Some _ => Ok (zlen d - 1)
            end) ;;
    Ok (if 0 <=? cur then [piece_of d 0 (cur + 1)] else [])
  else
    ' (cur, out) <- brsplit_loop (S (length d)) d sep max (zlen d - 1) 0 [] ;;
    Ok (rev (if has_sep sep || negb (cur =? -1) then out ++ [piece_of d 0 (cur + 1)] else out)).

(** [x.split(sep, max)] and [x.rsplit(sep, max)] of bytes: an empty separator is an error; no
    separator, or None, means whitespace; no limit is -1 (bytes_wrapper.py:1490-1526). *)
Definition split_call {A} (f : list Z -> option (list Z) -> Z -> result A)
    (x : bytes) (sep : option bytes) (max : Z) : result A :=
  match sep with
  | Some s => if blen s =? 0 then Err ValueError else f (bdata x) (Some (bdata s)) max
  | None => f (bdata x) None max
  end.

Definition bytes_split := split_call bsplit.
Definition bytes_rsplit := split_call brsplit.

(** The line break at position [m]: its length (BytesType.cpp:281-289, StringType.cpp:775-783) *)
Definition break_len (d : list Z) (m : Z) : result Z :=
  if m <? zlen d then
    c <- cread d m ;;
    if (c =? 13) && (m + 1 <? zlen d) then
      c2 <- cread d (m + 1) ;; Ok (if c2 =? 10 then 2 else 1)
    else Ok 1
  else Ok 0.

(** The loop of BytesType::splitlines (BytesType.cpp:275-303) and of StringType::splitlines
    (StringType.cpp:769-797): the bounds of the pieces *)
Fixpoint lines_loop (fuel : nat) (d : list Z) (brk : Z -> bool) (keepends : bool) (cur : Z)
    (out : list (Z * Z)) : result (Z * list (Z * Z)) :=
  match fuel with
  | O => Err OutOfFuel
  | S fuel =>
      if cur <? zlen d then
        m <- scan_up (scan_fuel d) (byte_test d brk) cur (zlen d) ;;
        k <- break_len d m ;;
        if zlen d <? m + k then Ok (cur, out)
        else lines_loop fuel d brk keepends (m + k)
               (out ++ [(cur, m + (if keepends then k else 0))])
      else Ok (cur, out)
  end.

Definition bytes_break (c : Z) : bool := (c =? 10) || (c =? 13).

(** BytesType::splitlines (BytesType.cpp:264-309) *)
Definition bytes_splitlines (x : bytes) (keepends : bool) : result (list bytes) :=
  let d := bdata x in
  ' (cur, out) <- lines_loop (S (length d)) d bytes_break keepends 0 [] ;;
  let out := map (fun p => piece_of d (fst p) (snd p)) out in
  Ok (if negb (zlen d =? cur) then out ++ [piece_of d cur (zlen d)] else out).

(** The loop that puts the pieces together in BytesType::join (BytesType.cpp:350-365) and in
    StringType::join (StringType.cpp:1727-1744) *)
Fixpoint join_data (sep : list Z) (items : list (list Z)) : list Z :=
  match items with
  | [] => []
  | [x] => x
  | x :: items => x ++ sep ++ join_data sep items
  end.

(** BytesType::join (BytesType.cpp:311-366): the result is null only if there is nothing to
    join. *)
Definition bytes_join (sep : bytes) (items : list bytes) : bytes :=
  match items with
  | [] => None
  | _ => Some (join_data (bdata sep) (map bdata items))
  end.

(** bytes_partition, bytes_rpartition (bytes_wrapper.py:767-814): a bound left out of a slice is
    the length. *)
Definition bytes_partition (x sep : bytes) : result (bytes * bytes * bytes) :=
  if blen sep =? 0 then Err ValueError
  else
    pos <- bytes_find x sep 0 (blen x) ;;
    Ok (if pos =? -1 then (x, None, None)
        else (bytes_getslice x 0 pos, sep, bytes_getslice x (pos + blen sep) (blen x))).

Definition bytes_rpartition (x sep : bytes) : result (bytes * bytes * bytes) :=
  if blen sep =? 0 then Err ValueError
  else
    pos <- bytes_rfind x sep 0 (blen x) ;;
    Ok (if pos =? -1 then (None, None, x)
        else (bytes_getslice x 0 pos, sep, bytes_getslice x (pos + blen sep) (blen x))).

(** ** Strings (StringType.cpp) *)

Definition ssep_len (sep : option str) : Z := match sep with Some s => slen s | None => 1 end.
Definition has_ssep (sep : option str) : bool := match sep with Some _ => true | None => false end.

(** The search for the next separator in StringType::split (StringType.cpp:640-649).  The table
    uprops says which code points are whitespace; it is the parameter [space]. *)
Definition ssplit_match (space : Z -> bool) (l : str) (sep : option str) (cur : Z) : result Z :=
  match sep with
  | Some s =>
      if fast_path l s then
        scan_up (scan_fuel (sdata l)) (test_at l s) cur (slen l)
      else
        m <- str_find l s cur (slen l) ;; Ok (if m =? -1 then slen l else m)
  | None => scan_up (scan_fuel (sdata l)) (byte_test (sdata l) space) cur (slen l)
  end.

(** The main loop of StringType::split (StringType.cpp:639-668) *)
Fixpoint ssplit_loop (fuel : nat) (space : Z -> bool) (l : str) (sep : option str)
    (max cur count : Z) (out : list str) : result (Z * list str) :=
  match fuel with
  | O => Err OutOfFuel
  | S fuel =>
      if ((count <? max) || (max <? 0)) && (cur <? slen l) then
        m <- ssplit_match space l sep cur ;;
        if slen l <=? m then Ok (cur, out)
        else if has_ssep sep || negb (m =? cur) then
          let out := out ++ [getsubstr l cur m] in
          let cur := m + ssep_len sep in
          let count := count + 1 in
          if (0 <=? max) && (max <=? count) then Ok (cur, out)
          else ssplit_loop fuel space l sep max cur count out
        else ssplit_loop fuel space l sep max (cur + 1) count out
      else Ok (cur, out)
  end.

(** StringType::split (StringType.cpp:618-681) *)
Definition ssplit (space : Z -> bool) (l : str) (sep : option str) (max : Z) : result (list str) :=
  if slen l =? 0 then
    Ok (match sep with Some s => if negb (slen s =? 0) then [l] else [] | None => [] end)
  else
    ' (cur, out) <- ssplit_loop (S (length (sdata l))) space l sep max 0 0 [] ;;
    cur <- (match sep with
            | None => scan_up (scan_fuel (sdata l))
                        (byte_test (sdata l) (fun c => negb (space c))) cur (slen l)
            | Some _ => Ok cur
            end) ;;
    Ok (if has_ssep sep || (cur <? slen l) || (max =? 0)
        then out ++ [getsubstr l cur (slen l)] else out).

(** The search in StringType::rsplit (StringType.cpp:705-714) *)
Definition srsplit_match (space : Z -> bool) (l : str) (sep : option str) (cur : Z) : result Z :=
  match sep with
  | Some s =>
      if fast_path l s then
        scan_down (scan_fuel (sdata l)) (test_at l s) cur 0
      else
        m <- str_rfind l s 0 (cur + 1) ;; Ok (if negb (m =? -1) then m + (slen s - 1) else m)
  | None => scan_down (scan_fuel (sdata l)) (byte_test (sdata l) space) cur 0
  end.

(** The main loop of StringType::rsplit (StringType.cpp:704-733) *)
Fixpoint srsplit_loop (fuel : nat) (space : Z -> bool) (l : str) (sep : option str)
    (max cur count : Z) (out : list str) : result (Z * list str) :=
  match fuel with
  | O => Err OutOfFuel
  | S fuel =>
      if ((count <? max) || (max <? 0)) && (0 <=? cur) then
        m <- srsplit_match space l sep cur ;;
        if m <? 0 then Ok (cur, out)
        else if has_ssep sep || negb (m =? cur) then
          let out := out ++ [getsubstr l (m + 1) (cur + 1)] in
          let cur := m - ssep_len sep in
          let count := count + 1 in
          if (0 <=? max) && (max <=? count) then Ok (cur, out)
          else srsplit_loop fuel space l sep max cur count out
        else srsplit_loop fuel space l sep max (cur - 1) count out
      else Ok (cur, out)
  end.

(** StringType::rsplit (StringType.cpp:683-747) *)
Definition srsplit (space : Z -> bool) (l : str) (sep : option str) (max : Z)
    : result (list str) :=
  if slen l =? 0 then
    Ok (match sep with Some s => if negb (slen s =? 0) then [l] else [] | None => [] end)
  else
    ' (cur, out) <- srsplit_loop (S (length (sdata l))) space l sep max (slen l - 1) 0 [] ;;
    cur <- (match sep with
            | None => scan_down (scan_fuel (sdata l))
                        (byte_test (sdata l) (fun c => negb (space c))) cur 0
            | Some _ => Ok cur
            end) ;;
    Ok (rev (if has_ssep sep || (0 <=? cur) || (max =? 0)
             then out ++ [getsubstr l 0 (cur + 1)] else out)).

(** [x.split(sep, max)] and [x.rsplit(sep, max)] of str (string_wrapper.py:883-919) *)
Definition ssplit_call (f : str -> option str -> Z -> result (list str))
    (x : str) (sep : option str) (max : Z) : result (list str) :=
  match sep with
  | Some s => if slen s =? 0 then Err ValueError else f x sep max
  | None => f x sep max
  end.

Definition str_split (space : Z -> bool) := ssplit_call (ssplit space).
Definition str_rsplit (space : Z -> bool) := ssplit_call (srsplit space).

(** linebreak (StringType.cpp:749-755) *)
Definition str_break (c : Z) : bool :=
  (c =? 10) || (c =? 13) || (c =? 11) || (c =? 12) || (c =? 28) || (c =? 29) || (c =? 30)
  || (c =? 133) || (c =? 8232) || (c =? 8233).

(** StringType::splitlines (StringType.cpp:759-806): the branch for a remainder adds it twice. *)
Definition str_splitlines (x : str) (keepends : bool) : result (list str) :=
  let d := sdata x in
  ' (cur, out) <- lines_loop (S (length d)) d str_break keepends 0 [] ;;
  let out := map (fun p => getsubstr x (fst p) (snd p)) out in
  let remainder := getsubstr x cur (zlen d) in
  Ok (if negb (zlen d =? cur) then out ++ [remainder; remainder] else out).

(** StringType::join (StringType.cpp:1659-1752): every text is widened to the widest of them.
    The counts, ints in the code, are unbounded here. *)
Definition str_join (sep : str) (items : list str) : str :=
  match items with
  | [] => None
  | _ =>
      let w := fold_left Z.max (map swidth items)
                 (match sep with Some l => Z.max 0 (bytes_per_codepoint l) | None => 0 end) in
      Some (mk_slayout w
              (join_data (sdata (upgrade_code_points sep w))
                 (map (fun i => sdata (upgrade_code_points i w)) items)))
  end.

(** strPartition, strRpartition (string_wrapper.py:233-250) *)
Definition str_partition (x sep : str) : result (str * str * str) :=
  if slen sep =? 0 then Err ValueError
  else
    pos <- str_find x sep 0 (slen x) ;;
    Ok (if pos =? -1 then (x, None, None)
        else (getsubstr x 0 pos, sep, getsubstr x (pos + slen sep) (slen x))).

Definition str_rpartition (x sep : str) : result (str * str * str) :=
  if slen sep =? 0 then Err ValueError
  else
    pos <- str_rfind x sep 0 (slen x) ;;
    Ok (if pos =? -1 then (None, None, x)
        else (getsubstr x 0 pos, sep, getsubstr x (pos + slen sep) (slen x))).
