(** What Python answers about text, in terms of what it answers about single characters. *)
From Verif Require Import Base Text_Model TextAsk_Model.
Open Scope Z_scope.
Open Scope list_scope.

Section Python.
Variable p : python.

Definition all_of (ok : Z -> bool) (cs : list Z) : Prop := cs <> nil /\ Forall (fun c => ok c = true) cs.
Definition says_isalpha := all_of (is_alpha p).
Definition says_isalnum := all_of (fun c => is_alpha p c || is_numeric p c).
Definition says_isdecimal := all_of (is_decimal p).
Definition says_isdigit := all_of (is_digit p).
Definition says_isnumeric := all_of (is_numeric p).
Definition says_isspace := all_of (is_space p).
Definition says_isprintable (cs : list Z) : Prop := Forall (fun c => is_printable p c = true) cs.

(** Some character is in lower case, none in another case. *)
Definition says_islower (cs : list Z) : Prop :=
  Exists (fun c => is_lower p c = true) cs /\ Forall (fun c => is_upper p c = false /\ is_title p c = false) cs.
Definition says_isupper (cs : list Z) : Prop :=
  Exists (fun c => is_upper p c = true) cs /\ Forall (fun c => is_lower p c = false /\ (is_title p c = true -> is_upper p c = true)) cs.

(** Upper and title case follow only uncased characters, lower case only cased ones, and some character is cased. *)
Definition cased (c : Z) : Prop := is_upper p c = true \/ is_lower p c = true \/ is_title p c = true.
Definition after_cased (before : list Z) : Prop := exists l d, before = l ++ [d] /\ cased d.
Definition says_istitle (cs : list Z) : Prop :=
  Exists cased cs /\
  forall before c after, cs = before ++ c :: after ->
    (is_upper p c = true \/ is_title p c = true -> ~ after_cased before) /\ (is_lower p c = true -> after_cased before).

(** Decimal characters are digits, and digits are numeric. *)
Definition nested : Prop := forall c, (is_decimal p c = true -> is_digit p c = true) /\ (is_digit p c = true -> is_numeric p c = true).

(** The table holds what Python answers. *)
Definition table_of (uprops : Z -> Z) : Prop := forall c, 0 <= c < 1114112 -> uprops c = flags_of p c.
End Python.

Definition points_of (s : str) : Prop := Forall (fun c => 0 <= c < 1114112) (sdata s).
(** The answer is right. *)
Definition answers (r : result bool) (claim : Prop) : Prop := exists b, r = Ok b /\ (b = true <-> claim).

(** The value of the run that [c] falls into. *)
Fixpoint value_at (runs : list (Z * Z)) (c : Z) : Z :=
  match runs with
  | nil => 0
  | (v, n) :: r => if c <? n then v else value_at r (c - n)
  end.

(** ASCII, as bytes see it. *)
Definition ascii : python := mk_python
  (fun c => ascii_upper c || ascii_lower c) ascii_lower ascii_upper ascii_digit ascii_digit ascii_digit
  (fun c => existsb (Z.eqb c) [9; 10; 11; 12; 13; 32]) (fun c => (32 <=? c) && (c <=? 126)) ascii_upper.

(** The whitespace of Unicode, as Python has it. *)
Definition unicode_spaces : list Z :=
  [9; 10; 11; 12; 13; 28; 29; 30; 31; 32; 133; 160; 5760; 8192; 8193; 8194; 8195; 8196; 8197; 8198; 8199; 8200; 8201; 8202;
   8232; 8233; 8239; 8287; 12288].

(** What the table that typed_python is built with says of single characters. *)
From Verif Require Import TextAsk_Table.
Definition shipped_flags (c : Z) : Z := value_at uprops_runlength c.
Definition python_of (f : Z -> Z) : python := mk_python
  (fun c => has (f c) ALPHA) (fun c => has (f c) LOWER) (fun c => has (f c) UPPER) (fun c => has (f c) DECIMAL) (fun c => has (f c) DIGIT)
  (fun c => has (f c) NUMERIC) (fun c => has (f c) SPACE) (fun c => has (f c) PRINTABLE) (fun c => has (f c) TITLE || has (f c) UPPER).
Definition shipped : python := python_of shipped_flags.
