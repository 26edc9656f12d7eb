(** Specification for C27, C55 and C56: what a date looks like as text. *)
From Coq Require Import String Ascii.
From Verif Require Import Base Calendar_Spec DateTime_Model DateTime_Spec DateText_Model.

Open Scope string_scope.
Open Scope Z_scope.
Open Scope list_scope.

(** ** Numbers *)

(** The [w] last decimal digits of [n]. *)
Fixpoint digits (w : nat) (n : Z) : text :=
  match w with O => [] | S w => (digits w (n / 10) ++ [48 + n mod 10]) end.

(** [t] is a decimal numeral of [n], maybe with leading zeros. *)
Inductive numeral : text -> Z -> Prop :=
| numeral_digit : forall k, 0 <= k < 10 -> numeral [48 + k] k
| numeral_more : forall t n k, numeral t n -> 0 <= k < 10 -> numeral (t ++ [48 + k]) (10 * n + k).

(** ** Formats *)

Inductive piece := Literal (c : Z) | Directive (d : Z).
(** A percent sign and the character behind it are a directive; anything else, and a percent sign at the very
    end, stands for itself. *)
Fixpoint pieces (fmt : text) : list piece :=
  match fmt with
  | [] => []
  | c :: fmt' =>
      match fmt' with
      | d :: fmt'' => if c =? 37 then Directive d :: pieces fmt'' else Literal c :: pieces fmt'
      | [] => [Literal c]
      end
  end.
Definition uses (fmt : text) (letter : string) : Prop := exists d, chars letter = [d] /\ In (Directive d) (pieces fmt).

Definition month_name (m : Z) : text :=
  nth (Z.to_nat (m - 1))
    (map chars ["January"; "February"; "March"; "April"; "May"; "June"; "July"; "August"; "September"; "October"; "November"; "December"]) [].
Definition day_name (w : Z) : text :=
  nth (Z.to_nat w) (map chars ["Sunday"; "Monday"; "Tuesday"; "Wednesday"; "Thursday"; "Friday"; "Saturday"]) [].

(** What the directives mean.  Weekdays count from Sunday, and 1970-01-01 was a Thursday. *)
Definition meaning (dt : datetime) : list (string * text) :=
  let d := dt_date dt in
  let t := dt_time dt in
  let w := (daysSinceEpoch d + 4) mod 7 in
  [("Y", digits 4 (year d)); ("m", digits 2 (month d)); ("d", digits 2 (day d));
   ("H", digits 2 (hour t)); ("M", digits 2 (minute t)); ("S", digits 2 (second t));
   ("b", firstn 3 (month_name (month d))); ("B", month_name (month d));
   ("a", firstn 3 (day_name w)); ("A", day_name w); ("w", digits 1 w); ("u", digits 1 (if w =? 0 then 7 else w));
   ("y", digits 2 (year d mod 100)); ("C", digits 2 (year d / 100)); ("j", digits 3 (daysSinceEpoch d - daysSinceEpoch (Date (year d) 1 1) + 1));
   ("I", digits 2 ((hour t + 11) mod 12 + 1)); ("p", if hour t <? 12 then chars "AM" else chars "PM");
   ("Z", chars "UTC"); ("z", chars "+0000"); ("%", chars "%")].
Definition means (dt : datetime) (p : piece) (t : text) : Prop :=
  match p with
  | Literal c => t = [c]
  | Directive d => exists letter, chars letter = [d] /\ In (letter, t) (meaning dt)
  end.

(** Every directive of the format is one of [letters]. *)
Definition only (letters : list string) (fmt : text) : Prop :=
  forall d, In (Directive d) (pieces fmt) -> exists letter, In letter letters /\ chars letter = [d].

(** The directives that a text can be written with, and those that a text can be read with. *)
Definition all_letters : list string :=
  ["Y"; "m"; "d"; "H"; "M"; "S"; "b"; "B"; "a"; "A"; "w"; "u"; "y"; "C"; "j"; "I"; "p"; "Z"; "z"; "%"].
Definition read_letters (zone_given : bool) : list string :=
  ["Y"; "m"; "d"; "H"; "I"; "M"; "S"; "b"; "B"; "p"] ++ if zone_given then [] else ["Z"; "z"].

(** The weekday is asked for only where it is defined: from the last Saturday of 1969 on, see C27_weekday_refuted. *)
Definition weekday_fine (dt : datetime) (fmt : text) : Prop :=
  -5 <= daysSinceEpoch (dt_date dt) \/ ~ (uses fmt "a" \/ uses fmt "A" \/ uses fmt "w" \/ uses fmt "u").
(** No capital letters in it. *)
Definition lowercase (t : text) : Prop := forallb (fun c => negb (is_upper c)) t = true.

(** The format says everything about [dt]: what it does not mention is the first month, the first day or zero. *)
Definition determines (fmt : text) (dt : datetime) : Prop :=
  let has_month := uses fmt "m" \/ uses fmt "b" \/ uses fmt "B" in
  uses fmt "Y"
  /\ (has_month \/ month (dt_date dt) = 1 /\ ~ uses fmt "d")
  /\ (uses fmt "d" \/ day (dt_date dt) = 1)
  /\ (uses fmt "H" /\ ~ uses fmt "I" /\ ~ uses fmt "p"
      \/ uses fmt "I" /\ uses fmt "p" /\ ~ uses fmt "H"
      \/ hour (dt_time dt) = 0 /\ ~ uses fmt "H" /\ ~ uses fmt "I" /\ ~ uses fmt "p")
  /\ (uses fmt "M" \/ minute (dt_time dt) = 0)
  /\ (uses fmt "S" \/ second (dt_time dt) = 0).
(** A time from noon to one o'clock written with AM and PM. *)
Definition noon (fmt : text) (dt : datetime) : Prop := uses fmt "p" /\ hour (dt_time dt) = 12.

(** ** ISO 8601 *)

(** A numeral with exactly [w] digits. *)
Definition wide (w : nat) (t : text) (n : Z) : Prop := numeral t n /\ List.length t = w.

Inductive iso_date_text : text -> date -> Prop :=
| iso_day : forall sep ty tm td y m d,
    In sep (chars "-/") -> wide 4 ty y -> numeral tm m -> numeral td d ->
    iso_date_text (ty ++ [sep] ++ tm ++ [sep] ++ td) (Date y m d)          (* 2020-02-29, 2020/2/29 *)
| iso_month : forall sep ty tm y m,
    In sep (chars "-/") -> wide 4 ty y -> numeral tm m ->
    iso_date_text (ty ++ [sep] ++ tm) (Date y m 1)                          (* 2020-02 *)
| iso_compact_day : forall ty tm td y m d,
    wide 4 ty y -> wide 2 tm m -> wide 2 td d -> iso_date_text (ty ++ tm ++ td) (Date y m d)   (* 20200229 *)
| iso_compact_month : forall ty tm y m,
    wide 4 ty y -> wide 2 tm m -> iso_date_text (ty ++ tm) (Date y m 1)     (* 202002 *)
| iso_year : forall ty y, wide 4 ty y -> iso_date_text ty (Date y 1 1).      (* 2020 *)

Inductive iso_time_text : text -> time -> Prop :=
| iso_second : forall sep th tm ts h m s,
    In sep (chars "Tt ") -> numeral th h -> numeral tm m -> numeral ts s ->
    iso_time_text ([sep] ++ th ++ chars ":" ++ tm ++ chars ":" ++ ts) (Time h m s)
| iso_minute : forall sep th tm h m,
    In sep (chars "Tt ") -> numeral th h -> numeral tm m ->
    iso_time_text ([sep] ++ th ++ chars ":" ++ tm) (Time h m 0)
| iso_compact_second : forall sep th tm ts h m s,
    In sep (chars "Tt ") -> wide 2 th h -> wide 2 tm m -> wide 2 ts s ->
    iso_time_text ([sep] ++ th ++ tm ++ ts) (Time h m s)
| iso_compact_minute : forall sep th tm h m,
    In sep (chars "Tt ") -> wide 2 th h -> wide 2 tm m -> iso_time_text ([sep] ++ th ++ tm) (Time h m 0)
| iso_hour : forall sep th h,
    In sep (chars "Tt ") -> wide 2 th h -> iso_time_text ([sep] ++ th) (Time h 0 0).

(** Offsets to the east, and names; [EST] and [NYC] stand for the zones [est] and [nyc]. *)
Inductive iso_zone_text (est nyc : zone) : text -> zone -> Prop :=
| no_zone : iso_zone_text est nyc [] utc
| zone_utc : forall t, lower t = chars "z" \/ lower t = chars "utc" -> iso_zone_text est nyc t utc
| zone_est : forall t, lower t = chars "est" -> iso_zone_text est nyc t est
| zone_nyc : forall t, lower t = chars "nyc" -> iso_zone_text est nyc t nyc
| zone_hours : forall th h, wide 2 th h -> iso_zone_text est nyc (chars "+" ++ th) (fixed (h * 3600))
| zone_minutes : forall colon th tm h m,
    In colon [chars ":"; []] -> wide 2 th h -> wide 2 tm m ->
    iso_zone_text est nyc (chars "+" ++ th ++ colon ++ tm) (fixed (h * 3600 + m * 60))
| zone_seconds : forall colon th tm ts h m s,
    In colon [chars ":"; []] -> wide 2 th h -> wide 2 tm m -> wide 2 ts s ->
    iso_zone_text est nyc (chars "+" ++ th ++ colon ++ tm ++ colon ++ ts) (fixed (h * 3600 + m * 60 + s)).

(** ** Dates with the name of the month, and with the year last *)

Definition names_month (t : text) (m : Z) : Prop :=
  1 <= m <= 12 /\
  (lower t = lower (month_name m) \/ lower t = lower (firstn 3 (month_name m)) \/ m = 9 /\ lower t = chars "sept").
(** A day or the number of a month: one or two digits. *)
Definition short (t : text) (n : Z) : Prop := numeral t n /\ (List.length t <= 2)%nat.

Inductive written_date_text : text -> date -> Prop :=
| month_day_year : forall tm td ty comma y m d,
    names_month tm m -> short td d -> wide 4 ty y -> In comma [chars ","; []] ->
    written_date_text (tm ++ chars " " ++ td ++ comma ++ chars " " ++ ty) (Date y m d)         (* January 5, 2020 *)
| day_month_year : forall tm td ty comma y m d,
    names_month tm m -> short td d -> wide 4 ty y -> In comma [chars ","; []] ->
    written_date_text (td ++ chars " " ++ tm ++ comma ++ chars " " ++ ty) (Date y m d)         (* 5 Jan 2020 *)
| year_month_day : forall tm td ty y m d,
    names_month tm m -> short td d -> wide 4 ty y ->
    written_date_text (ty ++ chars " " ++ tm ++ chars " " ++ td) (Date y m d)                  (* 2020 Jan 5 *)
| dashed_day_month : forall sep tm td ty y m d,
    In sep (chars "-/") -> names_month tm m -> short td d -> wide 4 ty y ->
    written_date_text (td ++ [sep] ++ tm ++ [sep] ++ ty) (Date y m d)                          (* 5-Jan-2020 *)
| dashed_month_day : forall sep tm td ty y m d,
    In sep (chars "-/") -> names_month tm m -> short td d -> wide 4 ty y ->
    written_date_text (tm ++ [sep] ++ td ++ [sep] ++ ty) (Date y m d)                          (* Jan/5/2020 *)
| dashed_year_month : forall sep tm td ty y m d,
    In sep (chars "-/") -> names_month tm m -> short td d -> wide 4 ty y ->
    written_date_text (ty ++ [sep] ++ tm ++ [sep] ++ td) (Date y m d)                          (* 2020-Jan-5 *)
| month_first : forall sep tm td ty y m d,
    In sep (chars "-/") -> short tm m -> short td d -> wide 4 ty y -> m <= 12 ->
    written_date_text (tm ++ [sep] ++ td ++ [sep] ++ ty) (Date y m d)                          (* 1/5/2020 *)
| day_first : forall sep tm td ty y m d,
    In sep (chars "-/") -> short tm m -> short td d -> wide 4 ty y -> 12 < d ->
    written_date_text (td ++ [sep] ++ tm ++ [sep] ++ ty) (Date y m d)                          (* 25/12/2020 *)
| short_year : forall sep tm td ty y m d,
    In sep (chars "-/") -> names_month tm m -> wide 2 td d -> wide 2 ty y ->
    written_date_text (td ++ [sep] ++ tm ++ [sep] ++ ty) (Date (2000 + y) m d).                (* 05-Jan-20 *)

Inductive clock_text : text -> time -> Prop :=
| clock_minute : forall th tm h m,
    numeral th h -> numeral tm m -> clock_text (th ++ chars ":" ++ tm) (Time h m 0)
| clock_second : forall th tm ts h m s,
    numeral th h -> numeral tm m -> numeral ts s -> clock_text (th ++ chars ":" ++ tm ++ chars ":" ++ ts) (Time h m s).
(** No time is midnight.  The hour from noon to one o'clock is left out: see C55_noon_refuted. *)
Inductive written_time_text : text -> time -> Prop :=
| no_time : written_time_text [] (Time 0 0 0)
| clock : forall t c, clock_text t c -> written_time_text (chars " " ++ t) c
| before_noon : forall t gap half h m s,
    clock_text t (Time h m s) -> In gap [[]; chars " "] -> lower half = chars "am" -> 1 <= h <= 12 ->
    written_time_text (chars " " ++ t ++ gap ++ half) (Time (h mod 12) m s)
| after_noon : forall t gap half h m s,
    clock_text t (Time h m s) -> In gap [[]; chars " "] -> lower half = chars "pm" -> 1 <= h < 12 ->
    written_time_text (chars " " ++ t ++ gap ++ half) (Time (h + 12) m s).

(** ** What a parser may answer *)

(** An error of a list, or the timestamp of a date and time that exist, in one of some zones. *)
Definition accepts_only (errors : list exn) (zones : zone -> Prop) (r : result Z) : Prop :=
  (exists e, In e errors /\ r = Err e) \/ (exists z dt, zones z /\ datetime_ok dt /\ r = z dt).
(** The zones a text can name. *)
Definition named_zone (est nyc : zone) (z : zone) : Prop := z = est \/ z = nyc \/ exists offset, z = fixed offset.
