(** The questions that code asks about the characters of text and bytes: [isalpha], [isdigit], [islower] and so on, with
    the table of properties that they look into, and the program that writes the table. *)
From Verif Require Import Base Text_Model.
Open Scope Z_scope.
Open Scope list_scope.
Open Scope result_scope.

(** ** The table *)

(** The bits: unicodeprops.py:17-25, UnicodeProps_3.7.4.hpp:23-31. *)
Definition ALPHA := 1.
Definition LOWER := 2.
Definition UPPER := 4.
Definition DECIMAL := 8.
Definition DIGIT := 16.
Definition NUMERIC := 32.
Definition SPACE := 64.
Definition PRINTABLE := 128.
Definition TITLE := 256.

(** What Python answers for the text of one character. *)
Record python := mk_python {
  is_alpha : Z -> bool; is_lower : Z -> bool; is_upper : Z -> bool; is_decimal : Z -> bool; is_digit : Z -> bool;
  is_numeric : Z -> bool; is_space : Z -> bool; is_printable : Z -> bool; is_title : Z -> bool }.

(** unicodeprops.py:48-58 *)
Definition flags_of (p : python) (c : Z) : Z :=
  let flag b v := if b : bool then v else 0 in
  flag (is_alpha p c) ALPHA + flag (is_lower p c) LOWER + flag (is_upper p c) UPPER + flag (is_decimal p c) DECIMAL +
  flag (is_digit p c) DIGIT + flag (is_numeric p c) NUMERIC + flag (is_space p c) SPACE + flag (is_printable p c) PRINTABLE +
  flag (is_title p c && negb (is_upper p c)) TITLE.

(** The loop of unicodeprops.py:46-77: [prev] and [count] are its variables, and the printed pairs are collected. *)
Fixpoint generate_loop (n : nat) (i : Z) (flags : Z -> Z) (prev : option Z) (count : Z) (out : list (Z * Z)) : option Z * Z * list (Z * Z) :=
  match n with
  | O => (prev, count, out)
  | S n =>
      let f := flags i in
      match prev with
      | Some v =>
          if negb (f =? v) then generate_loop n (i + 1) flags (Some f) 1 (out ++ [(v, count)])
          else if count + 1 =? 65535 then generate_loop n (i + 1) flags prev 0 (out ++ [(v, count + 1)])
          else generate_loop n (i + 1) flags prev (count + 1) out
      | None => generate_loop n (i + 1) flags (Some f) 1 out
      end
  end.
(** unicodeprops.py:42-80.  Python cannot print a pair of [None]. *)
Definition generate (last : Z) (flags : Z -> Z) : result (list (Z * Z)) :=
  match generate_loop (Z.to_nat (last + 1)) 0 flags None 0 nil with
  | (Some v, count, out) => Ok (out ++ [(v, count)])
  | (None, _, _) => Err ValueError
  end.

(** [initialize_uprops], UnicodeProps_3.7.4.hpp:243-248: [cur] walks over the array [uprops] of [size] entries. *)
Fixpoint fill_run (size : Z) (n : nat) (v cur : Z) (a : Z -> Z) : result (Z * (Z -> Z)) :=
  match n with
  | O => Ok (cur, a)
  | S n => if cur <? size then fill_run size n v (cur + 1) (fun i => if i =? cur then v else a i) else Err UndefinedBehaviour
  end.
Fixpoint initialize_loop (size : Z) (entries : nat) (k : nat) (runs : list (Z * Z)) (cur : Z) (a : Z -> Z) : result (Z -> Z) :=
  match entries with
  | O => Ok a
  | S entries =>
      match nth_error runs k with
      | Some (v, n) =>
          ' (cur, a) <- fill_run size (Z.to_nat n) v cur a ;;
          initialize_loop size entries (S k) runs cur a
      | None => Err UndefinedBehaviour
      end
  end.
Definition initialize_uprops (size : Z) (entries : Z) (runs : list (Z * Z)) : result (Z -> Z) :=
  initialize_loop size (Z.to_nat entries) 0 runs 0 (fun _ => 0).

(** ** Text *)

Definition has (flags bit : Z) : bool := negb (Z.land flags bit =? 0).

(** [uprops[c]] *)
Definition uprop (uprops : Z -> Z) (c : Z) : result Z :=
  if (0 <=? c) && (c <? 1114112) then Ok (uprops c) else Err UndefinedBehaviour.

(** The loops of StringType.cpp:809-898 that end with [false] at a character that does not satisfy [ok]. *)
Fixpoint each_point (uprops : Z -> Z) (ok : Z -> bool) (cs : list Z) : result bool :=
  match cs with
  | nil => Ok true
  | c :: r => flags <- uprop uprops c ;; if negb (ok flags) then Ok false else each_point uprops ok r
  end.
(** What they do with empty text. *)
Definition ask (empty : bool) (uprops : Z -> Z) (ok : Z -> bool) (s : str) : result bool :=
  if slen s =? 0 then Ok empty else each_point uprops ok (sdata s).

Definition isalpha (uprops : Z -> Z) : str -> result bool := ask false uprops (fun f => has f ALPHA).
Definition isalnum (uprops : Z -> Z) : str -> result bool :=
  ask false uprops (fun f => negb (negb (has f ALPHA) && negb (has f NUMERIC) && negb (has f DECIMAL) && negb (has f DIGIT))).
Definition isdecimal (uprops : Z -> Z) : str -> result bool := ask false uprops (fun f => has f DECIMAL).
Definition isdigit (uprops : Z -> Z) : str -> result bool := ask false uprops (fun f => negb (negb (has f DECIMAL) && negb (has f DIGIT))).
Definition isnumeric (uprops : Z -> Z) : str -> result bool :=
  ask false uprops (fun f => negb (negb (has f DECIMAL) && negb (has f DIGIT) && negb (has f NUMERIC))).
Definition isprintable (uprops : Z -> Z) : str -> result bool := ask true uprops (fun f => has f PRINTABLE).
Definition isspace (uprops : Z -> Z) : str -> result bool := ask false uprops (fun f => has f SPACE).

(** [islower] and [isupper], StringType.cpp:851-866 and 924-939: [bad] is the other case, [good] the one that is asked for. *)
Fixpoint cased_loop (uprops : Z -> Z) (bad good : Z) (cs : list Z) (found_one : bool) : result bool :=
  match cs with
  | nil => Ok found_one
  | c :: r =>
      flags <- uprop uprops c ;;
      if has flags bad then Ok false
      else if has flags TITLE then Ok false
      else cased_loop uprops bad good r (if has flags good then true else found_one)
  end.
Definition islower (uprops : Z -> Z) (s : str) : result bool :=
  if slen s =? 0 then Ok false else cased_loop uprops UPPER LOWER (sdata s) false.
Definition isupper (uprops : Z -> Z) (s : str) : result bool :=
  if slen s =? 0 then Ok false else cased_loop uprops LOWER UPPER (sdata s) false.

(** [istitle], StringType.cpp:899-922 *)
Fixpoint title_loop (uprops : Z -> Z) (cs : list Z) (last_cased found_one : bool) : result bool :=
  match cs with
  | nil => Ok found_one
  | c :: r =>
      flags <- uprop uprops c ;;
      let upper := has flags UPPER in
      let lower := has flags LOWER in
      let title := has flags TITLE in
      if upper && last_cased then Ok false
      else if lower && negb last_cased then Ok false
      else if title && last_cased then Ok false
      else
        let last_cased := upper || lower || title in
        title_loop uprops r last_cased (if last_cased then true else found_one)
  end.
Definition istitle (uprops : Z -> Z) (s : str) : result bool :=
  if slen s =? 0 then Ok false else title_loop uprops (sdata s) false false.

(** ** Bytes: bytes_wrapper.py:142-290, compiled as they stand *)

Definition ascii_digit (i : Z) : bool := (48 <=? i) && (i <=? 57).
Definition ascii_upper (i : Z) : bool := (65 <=? i) && (i <=? 90).
Definition ascii_lower (i : Z) : bool := (97 <=? i) && (i <=? 122).

Fixpoint each_byte (ok : Z -> bool) (bs : list Z) : bool :=
  match bs with nil => true | i :: r => if negb (ok i) then false else each_byte ok r end.
Definition ask_bytes (ok : Z -> bool) (x : bytes) : bool := if blen x =? 0 then false else each_byte ok (bdata x).
Definition bytes_isalnum : bytes -> bool := ask_bytes (fun i => ascii_digit i || ascii_upper i || ascii_lower i).
Definition bytes_isalpha : bytes -> bool := ask_bytes (fun i => ascii_upper i || ascii_lower i).
Definition bytes_isdigit : bytes -> bool := ask_bytes ascii_digit.
Definition bytes_isspace : bytes -> bool :=
  ask_bytes (fun i => negb (negb (i =? 32) && negb (i =? 9) && negb (i =? 10) && negb (i =? 13) && negb (i =? 11) && negb (i =? 12))).

Fixpoint cased_bytes (good bad : Z -> bool) (bs : list Z) (found : bool) : bool :=
  match bs with
  | nil => found
  | i :: r => if good i then cased_bytes good bad r true else if bad i then false else cased_bytes good bad r found
  end.
Definition bytes_islower (x : bytes) : bool := cased_bytes ascii_lower ascii_upper (bdata x) false.
Definition bytes_isupper (x : bytes) : bool := cased_bytes ascii_upper ascii_lower (bdata x) false.

Fixpoint title_bytes (bs : list Z) (last_cased found_one : bool) : bool :=
  match bs with
  | nil => found_one
  | i :: r =>
      let upper := ascii_upper i in
      let lower := ascii_lower i in
      if upper && last_cased then false
      else if lower && negb last_cased then false
      else let last_cased := upper || lower in title_bytes r last_cased (if last_cased then true else found_one)
  end.
Definition bytes_istitle (x : bytes) : bool := if blen x =? 0 then false else title_bytes (bdata x) false false.
