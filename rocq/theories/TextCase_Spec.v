(** What Python's methods make of text and bytes, in terms of its tables for single characters. *)
From Verif Require Import Base Text_Model TextCase_Model.
Open Scope Z_scope.
Open Scope list_scope.

(** Every character of a text, with those before it (the nearest first) and those after it. *)
Fixpoint contexts (before cs : list Z) : list (list Z * Z * list Z) :=
  match cs with
  | nil => nil
  | c :: r => (before, c, r) :: contexts (c :: before) r
  end.

Section Python.
Variable t : tables.

(** Of the characters in this direction the first one that case does not ignore is cased. *)
Fixpoint cased_next (cs : list Z) : bool :=
  match cs with
  | nil => false
  | c :: r => if is_case_ignorable t c then cased_next r else is_cased t c
  end.
(** Capital sigma has another lower case at the end of a word. *)
Definition sigma : Z := 931.
Definition lower_at (x : list Z * Z * list Z) : list Z :=
  let '(before, c, after) := x in
  if c =? sigma then [if cased_next before && negb (cased_next after) then 962 else 963] else to_lower t c.

Definition python_upper (cs : list Z) : list Z := flat_map (to_upper t) cs.
Definition python_casefold (cs : list Z) : list Z := flat_map (to_folded t) cs.
Definition python_lower (cs : list Z) : list Z := flat_map lower_at (contexts nil cs).
Definition python_swapcase (cs : list Z) : list Z :=
  flat_map (fun x => let '(_, c, _) := x in
    if is_uppercase t c then lower_at x else if is_lowercase t c then to_upper t c else [c]) (contexts nil cs).
(** Before Python 3.8 the first character is put in upper case, since then in title case. *)
Definition python_capitalize (since_3_8 : bool) (cs : list Z) : list Z :=
  flat_map (fun x => let '(before, c, _) := x in
    match before with nil => if since_3_8 then to_title t c else to_upper t c | _ => lower_at x end) (contexts nil cs).
Definition python_title (cs : list Z) : list Z :=
  flat_map (fun x => let '(before, c, _) := x in
    match before with d :: _ => if is_cased t d then lower_at x else to_title t c | nil => to_title t c end) (contexts nil cs).

(** Python's tables: a character becomes one to three others, and none is both in upper and in lower case. *)
Record proper : Prop := {
  one_to_three : forall c, 1 <= zlen (to_upper t c) <= 3 /\ 1 <= zlen (to_lower t c) <= 3 /\ 1 <= zlen (to_title t c) <= 3 /\
    1 <= zlen (to_folded t c) <= 3;
  lower_sigma : to_lower t sigma = [963];
  one_case : forall c, is_uppercase t c = true -> is_lowercase t c = false }.

(** The character is cased exactly if it is a letter, else it has no other case. *)
Definition plain (c : Z) : Prop := is_alphabetic t c = is_cased t c /\ (is_cased t c = false -> to_title t c = [c] /\ to_lower t c = [c]).
(** No capital sigma ends a word. *)
Definition no_final_sigma (cs : list Z) : Prop :=
  forall before after, In (before, sigma, after) (contexts nil cs) -> cased_next before && negb (cased_next after) = false.

(** The tables know the letters of ASCII. *)
Definition knows_ascii : Prop := forall c, 0 <= c < 128 ->
  to_upper t c = [c_toupper c] /\ to_lower t c = [c_tolower c] /\ to_title t c = [c_toupper c] /\ to_folded t c = [c_tolower c] /\
  is_lowercase t c = c_lower c /\ is_uppercase t c = c_upper c /\ is_alphabetic t c = c_alpha c /\ is_cased t c = c_alpha c.
End Python.

(** A text with cells of one, two or four bytes that hold its characters. *)
Definition stored (s : str) : Prop :=
  match s with
  | None => True
  | Some l => In (bytes_per_codepoint l) [1; 2; 4] /\ Forall (fun c => 0 <= c < 2 ^ (8 * bytes_per_codepoint l)) (codepoints l)
  end.
(** The characters fit into cells of the width of [s]'s. *)
Definition fit (s : str) (cs : list Z) : Prop := Forall (fun c => 0 <= c < 2 ^ (8 * swidth s)) cs.

(** The characters as they are kept in cells that are too small for them. *)
Definition cut (s : str) (cs : list Z) : list Z := map (fun c => c mod 2 ^ (8 * swidth s)) cs.
(** The outcome is a text with the cells of [s], and these characters. *)
Definition gives (s : str) (r : result str) (cs : list Z) : Prop :=
  exists s', r = Ok s' /\ sdata s' = cs /\ stored s' /\ swidth s' = swidth s /\ (s' = None <-> s = None).

(** [bytes.title]: a letter after a letter is put in lower case, another one in upper case, and what is no letter is kept. *)
Definition title_at (x : list Z * Z * list Z) : Z :=
  let '(before, c, _) := x in
  match before with d :: _ => if c_alpha d then c_tolower c else c_toupper c | nil => c_toupper c end.
