(** Changing the case of text and bytes in compiled code: [upper], [lower], [casefold], [capitalize], [swapcase] and [title]. *)
From Verif Require Import Base Text_Model.
Open Scope Z_scope.
Open Scope list_scope.
Open Scope result_scope.

(** ** Text *)

(** What CPython says of single characters: [_PyUnicode_ToUpperFull] and so on, which write their result into a buffer, and
    [_PyUnicode_IsLowercase] and so on.  The last two are used by CPython's own methods only. *)
Record tables := mk_tables {
  to_upper : Z -> list Z; to_lower : Z -> list Z; to_title : Z -> list Z; to_folded : Z -> list Z;
  is_lowercase : Z -> bool; is_uppercase : Z -> bool; is_alphabetic : Z -> bool;
  is_cased : Z -> bool; is_case_ignorable : Z -> bool }.

(** The variables of the loops of StringType.cpp:103-420: the new layout, as the code points that have been written to it and the bytes
    that it has room for ([new_byteCount] less the header), [new_pointcount], [allocated_points] and [increment].  The four loops differ
    only in what they do with a character. *)
Record memory := mk_memory { written : list Z; room : Z; new_pointcount : Z; allocated_points : Z; increment : Z }.

(** [allocated_points * l->bytes_per_codepoint], a product of two [int32_t] *)
Definition bytes_for (points w : Z) : Z := wrap_s 32 (points * w).

(** StringType.cpp:106-117 *)
Definition begin (w : Z) (count : Z) : memory := mk_memory nil (bytes_for count w) count count 8.

(** StringType.cpp:121-134 *)
Definition make_room (w n : Z) (m : memory) : memory :=
  if 1 <? n then
    let points := wrap_s 32 (new_pointcount m + (n - 1)) in
    if allocated_points m <? points then
      let allocated := wrap_s 32 (allocated_points m + increment m) in
      mk_memory (written m) (bytes_for allocated w) points allocated (Z.quot (wrap_s 32 (increment m * 3)) 2)
    else mk_memory (written m) (room m) points (allocated_points m) (increment m)
  else m.

(** [((T* )(new_layout->data))[k++] = (T)c] *)
Definition write (w : Z) (m : memory) (c : Z) : result memory :=
  if (zlen (written m) + 1) * w <=? room m then
    Ok (mk_memory (written m ++ [wrap_u (8 * w) c]) (room m) (new_pointcount m) (allocated_points m) (increment m))
  else Err UndefinedBehaviour.
Fixpoint write_all (w : Z) (m : memory) (cs : list Z) : result memory :=
  match cs with
  | nil => Ok m
  | c :: r => m <- write w m c ;; write_all w m r
  end.

(** StringType.cpp:119-139, and likewise in the other three: [choose] tells, from the characters so far, whether to copy the character
    or to write others for it. *)
Fixpoint case_loop {S} (choose : S -> Z -> option (list Z) * S) (w : Z) (cs : list Z) (s : S) (m : memory) : result memory :=
  match cs with
  | nil => Ok m
  | c :: r =>
      let '(what, s) := choose s c in
      m <- match what with
           | None => write w m c
           | Some buf => write_all w (make_room w (zlen buf) m) buf
           end ;;
      case_loop choose w r s m
  end.

(** StringType.cpp:140-148.  The text that results has [new_pointcount] characters: where these are not those that were written, or are
    cut off by the last [realloc], it is undefined. *)
Definition finish (w : Z) (m : memory) : result str :=
  let room := if new_pointcount m <? allocated_points m then bytes_for (new_pointcount m) w else room m in
  if (new_pointcount m =? zlen (written m)) && (zlen (written m) * w <=? room) then Ok (Some (mk_slayout w (written m)))
  else Err UndefinedBehaviour.

Definition change_case {S} (choose : S -> Z -> option (list Z) * S) (s0 : S) (s : str) : result str :=
  match s with
  | None => Ok None
  | Some l =>
      let w := bytes_per_codepoint l in
      m <- case_loop choose w (codepoints l) s0 (begin w (zlen (codepoints l))) ;; finish w m
  end.

Section Methods.
Variable t : tables.

(** [unicode_generic], StringType.cpp:102-199 *)
Definition each (operation : Z -> list Z) (_ : unit) (c : Z) : option (list Z) * unit := (Some (operation c), tt).
Definition str_upper : str -> result str := change_case (each (to_upper t)) tt.
Definition str_lower : str -> result str := change_case (each (to_lower t)) tt.
Definition str_casefold : str -> result str := change_case (each (to_folded t)) tt.

(** [capitalize_generic], StringType.cpp:201-261: [first] is [src == data] *)
Definition choose_capital (first : bool) (c : Z) : option (list Z) * bool :=
  (Some (if first then to_upper t c else to_lower t c), false).
Definition str_capitalize : str -> result str := change_case choose_capital true.

(** [swapcase_generic], StringType.cpp:276-337 *)
Definition choose_swap (_ : unit) (c : Z) : option (list Z) * unit :=
  let make_upper := is_lowercase t c in
  let just_copy := negb make_upper && negb (is_uppercase t c) in
  (if just_copy then None else Some (if make_upper then to_upper t c else to_lower t c), tt).
Definition str_swapcase : str -> result str := change_case choose_swap tt.

(** [title_generic], StringType.cpp:362-438 *)
Definition choose_title (word : bool) (c : Z) : option (list Z) * bool :=
  if word then if is_alphabetic t c then (Some (to_lower t c), true) else (None, false)
  else if is_alphabetic t c then (Some (to_title t c), true) else (None, false).
Definition str_title : str -> result str := change_case choose_title false.
End Methods.

(** ** Bytes *)

(** [toupper], [tolower], [isalpha], [islower] and [isupper] of C, in the locale that a C program starts with. *)
Definition c_upper (c : Z) : bool := (65 <=? c) && (c <=? 90).
Definition c_lower (c : Z) : bool := (97 <=? c) && (c <=? 122).
Definition c_alpha (c : Z) : bool := c_upper c || c_lower c.
Definition c_toupper (c : Z) : Z := if c_lower c then c - 32 else c.
Definition c_tolower (c : Z) : Z := if c_upper c then c + 32 else c.

(** BytesType.cpp:714-780: the new layout has the length of the old one, and each byte is written once. *)
Definition bytes_lower (x : bytes) : bytes := match x with None => None | Some l => Some (map c_tolower l) end.
Definition bytes_upper (x : bytes) : bytes := match x with None => None | Some l => Some (map c_toupper l) end.
Definition bytes_capitalize (x : bytes) : bytes :=
  match x with
  | None => None
  | Some nil => Some nil
  | Some (c :: r) => Some (c_toupper c :: map c_tolower r)
  end.
Definition bytes_swapcase (x : bytes) : bytes :=
  match x with
  | None => None
  | Some l => Some (map (fun c => if c_lower c then c_toupper c else if c_upper c then c_tolower c else c) l)
  end.
(** BytesType.cpp:782-821 *)
Fixpoint title_loop (word : bool) (l : list Z) : list Z :=
  match l with
  | nil => nil
  | c :: r =>
      if word then if c_alpha c then c_tolower c :: title_loop true r else c :: title_loop false r
      else if c_alpha c then c_toupper c :: title_loop true r else c :: title_loop false r
  end.
Definition bytes_title (x : bytes) : bytes := match x with None => None | Some l => Some (title_loop false l) end.
