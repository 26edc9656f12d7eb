(** Which texts are numbers, and which numbers they are. *)
From Verif Require Import Base Text_Model TextAsk_Model TextAsk_Spec TextNum_Model.
Open Scope Z_scope.
Open Scope list_scope.

Section Grammar.
(** The characters that count as space, and the digits with their values. *)
Variables (space : Z -> Prop) (digit : Z -> option Z).

(** Digits, with single underscores between them if wanted: the text and the values of its digits. *)
Inductive grouped : list Z -> list Z -> Prop :=
| last_digit : forall c v, digit c = Some v -> grouped [c] [v]
| next_digit : forall c v r vs, digit c = Some v -> grouped r vs -> grouped (c :: r) (v :: vs)
| next_group : forall c v r vs, digit c = Some v -> grouped r vs -> grouped (c :: 95 :: r) (v :: vs).

Inductive signed : list Z -> bool -> Prop :=
| no_sign : signed nil false
| plus : signed [43] false
| minus : signed [45] true.

(** The number that has these digits. *)
Definition number (vs : list Z) : Z := fold_left (fun n v => n * 10 + v) vs 0.
Definition with_sign (negative : bool) (n : Z) : Z := if negative then - n else n.

(** [int(text)] is [v] *)
Definition says_int (cs : list Z) (v : Z) : Prop := exists before sign body after negative vs,
  cs = before ++ sign ++ body ++ after /\ Forall space before /\ Forall space after /\ signed sign negative /\ grouped body vs /\
  v = with_sign negative (number vs).

(** The digits before and after the point. *)
Inductive mantissa : list Z -> list Z -> list Z -> Prop :=
| whole_only : forall w vs, grouped w vs -> mantissa w vs nil
| whole_point : forall w vs, grouped w vs -> mantissa (w ++ [46]) vs nil
| whole_fraction : forall w vs f us, grouped w vs -> grouped f us -> mantissa (w ++ 46 :: f) vs us
| fraction_only : forall f us, grouped f us -> mantissa (46 :: f) nil us.
Inductive power : list Z -> Z -> Prop :=
| no_power : power nil 0
| with_power : forall e sign negative x vs, e = 101 \/ e = 69 -> signed sign negative -> grouped x vs ->
    power (e :: sign ++ x) (with_sign negative (number vs)).
(** "inf", "infinity" and "nan" in any case *)
Definition spelled (word cs : list Z) : Prop := map c_tolower cs = word.

(** [float(text)] is the floating point number next to this one. *)
Inductive says_float : list Z -> literal -> Prop :=
| finite : forall before sign m x after negative vs us e, Forall space before -> Forall space after -> signed sign negative ->
    mantissa m vs us -> power x e ->
    says_float (before ++ sign ++ m ++ x ++ after) (Finite negative (map (Z.add 48) (vs ++ us)) (e - zlen us))
| infinite : forall before sign word after negative, Forall space before -> Forall space after -> signed sign negative ->
    spelled inf word \/ spelled infinity word -> says_float (before ++ sign ++ word ++ after) (Infinite negative)
| not_a_number : forall before sign word after negative, Forall space before -> Forall space after -> signed sign negative ->
    spelled nan word -> says_float (before ++ sign ++ word ++ after) NotANumber.
End Grammar.

(** The digits 0 to 9. *)
Definition ascii_value (c : Z) : option Z := if (48 <=? c) && (c <=? 57) then Some (c - 48) else None.
(** The table knows these spaces, and no others. *)
Definition spaces_of (uprops : Z -> Z) (space : Z -> Prop) : Prop :=
  forall c, 0 <= c < 1114112 -> has (uprops c) SPACE = true <-> space c.
(** None of them is a letter of ASCII, a digit, a sign, a point or an underscore. *)
Definition usual_spaces (space : Z -> Prop) : Prop := forall c, space c -> c < 43 \/ 122 < c.

(** The characters that are spaces in Unicode. *)
Definition unicode_space (c : Z) : Prop := In c unicode_spaces.
(** The characters of a text that are neither spaces nor underscores. *)
Definition counted (uprops : Z -> Z) (cs : list Z) : Z := zlen (filter (fun c => negb (has (uprops c) SPACE) && negb (c =? 95)) cs).

(** Before a point there are no point and no exponent, before an exponent there is no other, and there is no character 0. *)
Definition follows (before : list Z) (c : Z) : Prop :=
  (c = 46 -> ~ In 46 before /\ ~ In 101 before /\ ~ In 69 before) /\ (c = 101 \/ c = 69 -> ~ In 101 before /\ ~ In 69 before) /\ c <> 0.
Definition tidy (cs : list Z) : Prop := forall before c after, cs = before ++ c :: after -> follows before c.

(** The usual text of an integer: no needless zeros, and no sign but that of a negative number. *)
Definition usual_text (n : Z) (cs : list Z) : Prop := exists sign negative vs, cs = sign ++ map (Z.add 48) vs /\
  sign = (if negative : bool then [45] else nil) /\ Forall (fun v => 0 <= v <= 9) vs /\ vs <> nil /\ n = with_sign negative (number vs) /\
  (forall v r, vs = v :: r -> r <> nil -> v <> 0) /\ (negative = true -> n < 0).

(** Digits without a zero at their end. *)
Definition ended (a : list Z) : Prop := a = nil \/ exists b d, a = b ++ [d] /\ d <> 48.
