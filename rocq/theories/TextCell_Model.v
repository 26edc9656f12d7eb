(** Where text comes from in compiled code, besides the operations of Text_Model, TextSplit_Model, TextEdit_Model and
    Utf8_Model: Python, and [chr].  And its hash. *)
From Verif Require Import Base Text_Model Val_Model.
Open Scope Z_scope.
Open Scope list_scope.
Open Scope result_scope.

(** The width of the cells of a Python string (its "kind"): the least that the code points fit in. *)
Definition kind_of (cs : list Z) : Z :=
  if forallb (fun c => c <? 256) cs then 1 else if forallb (fun c => c <? 65536) cs then 2 else 4.

(** [StringType::constructor], StringType.cpp:1517-1533, as it is called by PyStringInstance.hpp:24-58. *)
Definition from_python (cs : list Z) : str := match cs with nil => None | _ => Some (mk_slayout (kind_of cs) cs) end.

(** [singleFromCodepoint], StringType.cpp:940-971: stored in cells of that width; [nativepython_runtime_string_chr],
    _runtime.cpp:705-717. *)
Definition single_from_codepoint (c : Z) : str :=
  let w := if c <=? 255 then 1 else if c <=? 65535 then 2 else 4 in
  Some (mk_slayout w [wrap_u (8 * w) c]).
Definition str_chr (c : Z) : result str := if (c <? 0) || (1114111 <? c) then Err ValueError else Ok (single_from_codepoint c).

(** [hash_static], StringType.hpp:285-305, of text whose hash is not remembered yet. *)
Definition str_hash (s : str) : Z :=
  match s with None => hash_string 0 1 (-1) nil | Some l => hash_string 1 (bytes_per_codepoint l) (-1) (codepoints l) end.
Definition bytes_hash (x : bytes) : Z := match x with None => hash_bytes 0 (-1) nil | Some l => hash_bytes 1 (-1) l end.
