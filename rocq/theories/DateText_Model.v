(** Model of typed_python/lib/datetime/date_formatter.py and date_parser.py.

    Text is a list of character codes, all below 128.  As in DateTime_Model, seconds, timestamps and zone
    offsets are whole numbers of seconds ([float] in the code): a fractional number in a text gives
    [Err NotImplementedError], which stands for "not modelled".  A position in a text is the rest of the text
    from there on.  A time zone is its [timestamp] method with [afterFold=False]. *)
From Coq Require Import String Ascii.
From Verif Require Import Base Chrono_Model DateTime_Model.
Open Scope Z_scope.
Open Scope result_scope.

(** ** Python's strings *)

Definition text := list Z.
Definition chars (s : string) : text := map (fun c => Z.of_N (N_of_ascii c)) (list_ascii_of_string s).

Definition is_upper (c : Z) : bool := (65 <=? c) && (c <=? 90).
Definition is_alpha (c : Z) : bool := is_upper c || ((97 <=? c) && (c <=? 122)).
Definition is_digit (c : Z) : bool := (48 <=? c) && (c <=? 57).
Definition is_space (c : Z) : bool := (c =? 32) || ((9 <=? c) && (c <=? 13)) || ((28 <=? c) && (c <=? 31)).
Definition lower_char (c : Z) : Z := if is_upper c then c + 32 else c.
Definition lower (t : text) : text := map lower_char t.
Fixpoint text_eqb (a b : text) : bool :=
  match a, b with
  | [], [] => true
  | x :: a, y :: b => (x =? y) && text_eqb a b
  | _, _ => false
  end.
Definition all (p : Z -> bool) (t : text) : bool := match t with [] => false | _ => forallb p t end.   (* [t.isdigit()], [t.isalpha()] *)
Fixpoint prefix (p t : text) : bool :=
  match p, t with
  | [], _ => true
  | x :: p, y :: t => (x =? y) && prefix p t
  | _, [] => false
  end.
Fixpoint contains (t sub : text) : bool :=       (* [t.find(sub) > -1] *)
  prefix sub t || match t with [] => false | _ :: t => contains t sub end.
Fixpoint replace_from (old new : text) (skip : nat) (t : text) : text :=
  match t with
  | [] => []
  | c :: t' =>
      match skip with
      | S k => replace_from old new k t'
      | O => if prefix old t then new ++ replace_from old new (List.length old - 1) t' else c :: replace_from old new 0 t'
      end
  end.
Definition replace (t old new : text) : text := replace_from old new 0 t.   (* [t.replace(old, new)] *)

(** [str(n)] *)
Fixpoint decimal (fuel : nat) (n : Z) : text :=
  match fuel with
  | O => []
  | S fuel => if n <? 10 then [48 + n] else decimal fuel (n / 10) ++ [48 + n mod 10]
  end.
Definition str (n : Z) : text :=
  if n <? 0 then 45 :: decimal (S (Z.to_nat (Z.log2 (- n)))) (- n) else decimal (S (Z.to_nat (Z.log2 n))) n.
(** [int(t)], for texts without blanks, signs and underscores: no others reach it.  Numbers are not bounded. *)
Definition number (t : text) : Z := fold_left (fun n c => n * 10 + (c - 48)) t 0.
Definition int_of (t : text) : result Z := if all is_digit t then Ok (number t) else Err ValueError.
(** [float(t)], for texts of at most two characters or of digits and dots: no others reach it. *)
Fixpoint drop_spaces (t : text) : text := match t with c :: t' => if is_space c then drop_spaces t' else t | [] => [] end.
Definition strip (t : text) : text := rev (drop_spaces (rev (drop_spaces t))).
Definition float_of (t : text) : result Z :=
  let t := strip t in
  let '(sign, t) := match t with c :: t' => if c =? 43 then (1, t') else if c =? 45 then (-1, t') else (1, t) | [] => (1, t) end in
  if all is_digit t then Ok (sign * number t)
  else if all is_digit (filter (fun c => negb (c =? 46)) t) && (List.length (filter (fun c => (c =? 46)%Z) t) =? 1)%nat
  then Err NotImplementedError
  else Err ValueError.

(** ** date_formatter.py *)

(** [f2d], [f3d], [f4d], date_formatter.py:88-139. *)
Definition f2d (n : Z) : text :=
  let res := str n in if (List.length res =? 1)%nat then chars "0" ++ res else res.
Definition f3d (n : Z) : text :=
  let res := str n in
  let l := List.length res in
  if (l =? 2)%nat then chars "0" ++ res else if (l =? 1)%nat then chars "00" ++ res else res.
Definition f4d (n : Z) : text :=
  let res := str n in
  let l := List.length res in
  if (l =? 3)%nat then chars "0" ++ res
  else if (l =? 2)%nat then chars "00" ++ res
  else if (l =? 1)%nat then chars "000" ++ res
  else res.

(** The tables, date_formatter.py:19-71. *)
Definition lookup {A} (table : list (Z * A)) (n : Z) : result A :=
  match find (fun p => fst p =? n) table with Some (_, v) => Ok v | None => Err KeyError end.
Definition month_names : list (Z * text) :=
  [(1, chars "January"); (2, chars "February"); (3, chars "March"); (4, chars "April"); (5, chars "May"); (6, chars "June");
   (7, chars "July"); (8, chars "August"); (9, chars "September"); (10, chars "October"); (11, chars "November"); (12, chars "December")].
Definition month_abbr : list (Z * text) :=
  [(1, chars "Jan"); (2, chars "Feb"); (3, chars "Mar"); (4, chars "Apr"); (5, chars "May"); (6, chars "Jun");
   (7, chars "Jul"); (8, chars "Aug"); (9, chars "Sep"); (10, chars "Oct"); (11, chars "Nov"); (12, chars "Dec")].
Definition day_names : list (Z * text) :=
  [(0, chars "Sunday"); (1, chars "Monday"); (2, chars "Tuesday"); (3, chars "Wednesday"); (4, chars "Thursday"); (5, chars "Friday"); (6, chars "Saturday")].
Definition day_abbr : list (Z * text) :=
  [(0, chars "Sun"); (1, chars "Mon"); (2, chars "Tue"); (3, chars "Wed"); (4, chars "Thu"); (5, chars "Fri"); (6, chars "Sat")].

(** [convert_to_12h], date_formatter.py:73-80. *)
Definition convert_to_12h (h : Z) : Z :=
  if (h =? 0) || (h =? 12) || (h =? 24) then 12 else if h <? 12 then h else h - 12.

(** A directive letter, as its character. *)
Definition is (d : Z) (letter : string) : bool := text_eqb [d] (chars letter).

(** The directives of [DateFormatter.format], date_formatter.py:201-248. *)
Definition format_directive (dt : datetime) (d : Z) : result text :=
  let wd := weekday (dt_date dt) in
  let y := year (dt_date dt) in
  let m := month (dt_date dt) in
  let h := hour (dt_time dt) in
  if is d "Y" then Ok (f4d y)
  else if is d "m" then Ok (f2d m)
  else if is d "d" then Ok (f2d (day (dt_date dt)))
  else if is d "H" then Ok (f2d h)
  else if is d "M" then Ok (f2d (minute (dt_time dt)))
  else if is d "S" then Ok (f2d (second (dt_time dt)))
  else if is d "a" then lookup day_abbr wd
  else if is d "A" then lookup day_names wd
  else if is d "w" then Ok (str wd)
  else if is d "b" then lookup month_abbr m
  else if is d "B" then lookup month_names m
  else if is d "y" then Ok (f2d (y mod 100))
  else if is d "I" then Ok (f2d (convert_to_12h h))
  else if is d "p" then Ok (if h <? 12 then chars "AM" else chars "PM")
  else if is d "Z" then Ok (chars "UTC")
  else if is d "z" then Ok (chars "+0000")
  else if is d "j" then Ok (f3d (dayOfYear (dt_date dt)))
  else if is d "C" then Ok (f2d (y / 100))
  else if is d "%" then Ok (chars "%")
  else if is d "u" then Ok (str (if wd =? 0 then 7 else wd))
  else Err ValueError.
(** The loop, date_formatter.py:193-253. *)
Fixpoint format_loop (dt : datetime) (fmt : text) : result text :=
  match fmt with
  | [] => Ok []
  | c :: fmt' =>
      match fmt' with
      | d :: fmt'' =>
          if c =? 37 then p <- format_directive dt d ;; t <- format_loop dt fmt'' ;; Ok (p ++ t)
          else t <- format_loop dt fmt' ;; Ok (c :: t)
      | [] => Ok [c]
      end
  end.
(** [DateFormatter.format], date_formatter.py:141-253, of the date and time that the zone's clocks show. *)
Definition format (dt : datetime) (fmt : text) : result text :=
  let y := f4d (year (dt_date dt)) in
  let m := f2d (month (dt_date dt)) in
  let d := f2d (day (dt_date dt)) in
  if text_eqb fmt (chars "%Y-%m-%d") then Ok (y ++ chars "-" ++ m ++ chars "-" ++ d)
  else if text_eqb fmt (chars "%Y-%m-%d %H:%M:%S") then
    Ok (y ++ chars "-" ++ m ++ chars "-" ++ d ++ chars " " ++ f2d (hour (dt_time dt)) ++ chars ":" ++ f2d (minute (dt_time dt))
        ++ chars ":" ++ f2d (second (dt_time dt)))
  else format_loop dt fmt.
Definition isoformat (dt : datetime) : result text := format dt (chars "%Y-%m-%dT%H:%M:%S").

(** ** date_parser.py *)

(** [MONTH_TO_INT], date_parser.py:28-93; [is_month], 95-104. *)
Definition month_table : list (text * Z) :=
  [(chars "jan", 1); (chars "january", 1); (chars "feb", 2); (chars "february", 2); (chars "mar", 3); (chars "march", 3);
   (chars "apr", 4); (chars "april", 4); (chars "may", 5); (chars "jun", 6); (chars "june", 6); (chars "jul", 7); (chars "july", 7);
   (chars "aug", 8); (chars "august", 8); (chars "sep", 9); (chars "sept", 9); (chars "september", 9); (chars "oct", 10);
   (chars "october", 10); (chars "nov", 11); (chars "november", 11); (chars "dec", 12); (chars "december", 12)].
Definition month_number (t : text) : option Z :=
  match find (fun p => text_eqb (fst p) t) month_table with Some (_, n) => Some n | None => None end.
Definition is_month (t : text) : bool := match month_number t with Some _ => true | None => false end.
Definition month_to_int (t : text) : result Z := match month_number t with Some n => Ok n | None => Err KeyError end.
(** [is4d], [is2d], date_parser.py:107-128. *)
Definition is4d (t : text) : bool := (List.length t =? 4)%nat && all is_digit t.
Definition is2d (t : text) : bool := (List.length t =? 2)%nat && all is_digit t.

Section Parser.
  Definition zone := datetime -> result Z.
  Definition fixed (offset : Z) : zone := fun dt => fixed_timestamp offset dt false.
  Definition utc : zone := fixed 0.
  (** The zones EST and NYC, and the names in [pytz.all_timezones]. *)
  Variables est nyc : zone.
  Variable pytz_name : text -> bool.

  (** [TimezoneChecker], date_time.py:1160-1175. *)
  Definition timezones (t : text) : option zone :=
    if text_eqb t (chars "") then Some utc
    else if text_eqb t (chars "+0000") then Some utc
    else if text_eqb t (chars "utc") then Some utc
    else if text_eqb t (chars "z") then Some utc
    else if text_eqb t (chars "est") then Some est
    else if text_eqb t (chars "nyc") then Some nyc
    else None.
  Definition is_valid_timezone (t : text) : bool :=
    match timezones (lower t) with Some _ => true | None => pytz_name t end.

  (** [get_timezone_from_string], date_parser.py:1077-1103; the offset in seconds, not in hours. *)
  Definition get_timezone_from_string (t : text) : result zone :=
    if is_valid_timezone t then match timezones t with Some z => Ok z | None => Err KeyError end
    else
      match t with
      | [] => Err IndexError
      | c :: comp =>
          if (c =? 43) || (c =? 45) then
            offset <-
              match List.length comp with
              | 2%nat => h <- float_of comp ;; Ok (h * 3600)
              | 4%nat => h <- float_of (firstn 2 comp) ;; m <- float_of (skipn 2 comp) ;; Ok (h * 3600 + m * 60)
              | 6%nat =>
                  h <- float_of (firstn 2 comp) ;; m <- float_of (firstn 2 (skipn 2 comp)) ;; s <- float_of (skipn 4 comp) ;;
                  Ok (h * 3600 + m * 60 + s)
              | _ => Err ValueError
              end ;;
            Ok (fixed (if c =? 45 then - offset else offset))
          else Err ValueError
      end.

  (** *** With a format *)

  (** The variables of [parse_with_format] and [parse_with_format_and_timezone], date_parser.py:135-141 and 392-398. *)
  Record fields := Fields { f_year : Z; f_month : Z; f_day : Z; f_hour : Z; f_minute : Z; f_second : Z; f_zone : text; f_ampm : text }.
  Definition no_fields : fields := Fields (-1) (-1) (-1) 0 0 0 [] [].

  (** The [%B] cascade: the longest slice of nine to three characters that is a month, date_parser.py:197-253 and 454-510. *)
  Fixpoint longest_month (lengths : list nat) (rest : text) : result (Z * text) :=
    match lengths with
    | [] => Err ValueError
    | k :: lengths =>
        match month_number (firstn k rest) with
        | Some n => Ok (n, skipn k rest)
        | None => longest_month lengths rest
        end
    end.
  (** The zone cascades [%Z] and [%z], date_parser.py:254-295. *)
  Fixpoint first_zone (lengths : list nat) (rest : text) : result (text * text) :=
    match lengths with
    | [] => Err ValueError
    | k :: lengths =>
        if is_valid_timezone (firstn k rest) then Ok (firstn k rest, skipn k rest) else first_zone lengths rest
    end.
  Definition two_digits (rest : text) : result (Z * text) :=
    if is2d (firstn 2 rest) then n <- int_of (firstn 2 rest) ;; Ok (n, skipn 2 rest) else Err ValueError.

  (** One directive: date_parser.py:148-305, and 405-526 where the caller gives the zone ([zone_given]). *)
  Definition parse_directive (zone_given : bool) (f : fields) (rest : text) (d : Z) : result (fields * text) :=
    let '(Fields y m dd h mi s tz ap) := f in
    if is d "Y" then
      if is4d (firstn 4 rest) then n <- int_of (firstn 4 rest) ;; Ok (Fields n m dd h mi s tz ap, skipn 4 rest) else Err ValueError
    else if is d "m" then '(n, rest) <- two_digits rest ;; Ok (Fields y n dd h mi s tz ap, rest)
    else if is d "d" then '(n, rest) <- two_digits rest ;; Ok (Fields y m n h mi s tz ap, rest)
    else if is d "H" then '(n, rest) <- two_digits rest ;; Ok (Fields y m dd n mi s tz ap, rest)
    else if is d "I" then '(n, rest) <- two_digits rest ;; Ok (Fields y m dd n mi s tz ap, rest)
    else if is d "M" then '(n, rest) <- two_digits rest ;; Ok (Fields y m dd h n s tz ap, rest)
    else if is d "S" then '(n, rest) <- two_digits rest ;; Ok (Fields y m dd h mi n tz ap, rest)
    else if is d "b" then
      match month_number (firstn 3 rest) with
      | Some n => Ok (Fields y n dd h mi s tz ap, skipn 3 rest)
      | None => Err ValueError
      end
    else if is d "B" then '(n, rest) <- longest_month [9; 8; 7; 6; 5; 4; 3]%nat rest ;; Ok (Fields y n dd h mi s tz ap, rest)
    else if is d "Z" then
      if zone_given then Err GenericError
      else '(z, rest) <- first_zone [4; 4; 3; 2]%nat rest ;; Ok (Fields y m dd h mi s z ap, rest)
    else if is d "z" then
      if zone_given then Err GenericError
      else '(z, rest) <- first_zone [5; 3]%nat rest ;; Ok (Fields y m dd h mi s z ap, rest)
    else if is d "p" then
      let tok := firstn 2 rest in
      if text_eqb tok (chars "am") || text_eqb tok (chars "pm") then Ok (Fields y m dd h mi s tz tok, skipn 2 rest)
      else Err ValueError
    else Err ValueError.
  Fixpoint parse_loop (zone_given : bool) (f : fields) (fmt rest : text) : result (fields * text) :=
    match fmt with
    | [] => Ok (f, rest)
    | c :: fmt' =>
        match fmt' with
        | d :: fmt'' =>
            if c =? 37 then '(f, rest) <- parse_directive zone_given f rest d ;; parse_loop zone_given f fmt'' rest
            else parse_loop zone_given f fmt' (skipn 1 rest)
        | [] => Ok (f, skipn 1 rest)
        end
    end.
  (** date_parser.py:310-334 and 532-551. *)
  Definition finish (zone_given : option zone) (f : fields) : result Z :=
    let '(Fields y m d h mi s tz ap) := f in
    h <- match ap with
         | [] => Ok h
         | _ =>
             if (12 <? h) || (h <? 1) then Err ValueError
             else Ok (if text_eqb ap (chars "am") && (h =? 12) then 0 else if text_eqb ap (chars "pm") then h + 12 else h)
         end ;;
    if negb (is_valid_date y m d) then Err ValueError
    else if negb (is_valid_time h mi s) then Err ValueError
    else
      let m := if m =? -1 then 1 else m in
      let d := if d =? -1 then 1 else d in
      z <- match zone_given with Some z => Ok z | None => get_timezone_from_string tz end ;;
      dt <- mk_datetime y m d h mi s ;; z dt.
  Definition parse_with_format (t fmt : text) : result Z :=
    '(f, _) <- parse_loop false no_fields fmt (lower t) ;; finish None f.
  Definition parse_with_format_and_timezone (t fmt : text) (z : zone) : result Z :=
    '(f, _) <- parse_loop true no_fields fmt (lower t) ;; finish (Some z) f.

  (** *** Tokens: [_get_tokens], date_parser.py:744-805 *)

  Fixpoint span (p : Z -> bool) (t : text) : text * text :=
    match t with
    | c :: t' => if p c then let '(a, b) := span p t' in (c :: a, b) else ([], t)
    | [] => ([], [])
    end.
  Definition in_number (c : Z) : bool := is_digit c || (c =? 46).
  Definition in_separator (c : Z) : bool := negb (is_space c) && negb (is_digit c) && negb (is_alpha c).
  Definition nonempty (t : text) : list text := match t with [] => [] | _ => [t] end.
  Fixpoint get_tokens (fuel : nat) (skip t : text) : result (list text) :=
    match t with
    | [] => Ok []
    | _ =>
        match fuel with
        | O => Err OutOfFuel
        | S fuel =>
            let '(a, t) := span is_alpha t in
            let '(n, t) := span in_number t in
            let '(b, t) := span is_space t in
            let '(o, t) := span in_separator t in
            rest <- get_tokens fuel skip t ;;
            Ok (nonempty a ++ nonempty n
                ++ (if contains skip (chars " ") then [] else match b with [] => [] | _ => [chars " "] end)
                ++ (if contains skip o then [] else nonempty o) ++ rest)
        end
    end.
  Definition tokens_of (skip t : text) : result (list text) := get_tokens (List.length t) skip t.

  (** *** ISO 8601 *)

  (** The tokens up to a "t", "+" or "-", and those behind it, date_parser.py:560-569 and 639-648. *)
  Fixpoint date_tokens (ts : list text) : list text * list text :=
    match ts with
    | [] => ([], [])
    | t :: ts =>
        if text_eqb t (chars "t") || text_eqb t (chars "+") || text_eqb t (chars "-") then ([], ts)
        else let '(a, b) := date_tokens ts in (t :: a, b)
    end.
  (** The tokens of the time, date_parser.py:603-615 and 682-696: the letters of a zone end it, or are an error
      when the zone is given. *)
  Fixpoint time_tokens (zone_given : bool) (ts : list text) : result (list text * list text) :=
    match ts with
    | [] => Ok ([], [])
    | t :: ts' =>
        if text_eqb t (chars "t") then Ok ([], ts')
        else if text_eqb t (chars "+") || text_eqb t (chars "-") then Ok ([], ts)
        else if all is_alpha t then if zone_given then Err ValueError else Ok ([], ts)
        else '(a, b) <- time_tokens zone_given ts' ;; Ok (t :: a, b)
    end.
  (** [_parse_iso_time_tokens], date_parser.py:710-742. *)
  Definition iso_time (ts : list text) : result (Z * Z * Z) :=
    '(h, m, s) <-
      match ts with
      | [t] =>
          match List.length t with
          | 6%nat => h <- int_of (firstn 2 t) ;; m <- int_of (firstn 2 (skipn 2 t)) ;; s <- float_of (firstn 2 (skipn 4 t)) ;; Ok (h, m, s)
          | 4%nat => h <- int_of (firstn 2 t) ;; m <- int_of (firstn 2 (skipn 2 t)) ;; Ok (h, m, 0)
          | 2%nat => h <- int_of (firstn 2 t) ;; Ok (h, 0, 0)
          | _ => Ok (0, 0, 0)
          end
      | [a; b] => h <- int_of a ;; m <- int_of b ;; Ok (h, m, 0)
      | [a; b; c] => h <- int_of a ;; m <- int_of b ;; s <- float_of c ;; Ok (h, m, s)
      | _ => Ok (0, 0, 0)
      end ;;
    if is_valid_time h m s then Ok (h, m, s) else Err ValueError.
  (** date_parser.py:571-596 and 650-675. *)
  Definition iso_date (ts : list text) : result (Z * Z * Z) :=
    '(y, m, d) <-
      match ts with
      | [t] =>
          match List.length t with
          | 8%nat => y <- int_of (firstn 4 t) ;; m <- int_of (firstn 2 (skipn 4 t)) ;; d <- int_of (firstn 2 (skipn 6 t)) ;; Ok (y, m, d)
          | 6%nat => y <- int_of (firstn 4 t) ;; m <- int_of (firstn 2 (skipn 4 t)) ;; Ok (y, m, 1)
          | 4%nat => y <- int_of (firstn 4 t) ;; Ok (y, 1, 1)
          | _ => Ok (-1, -1, -1)
          end
      | [a; b] => if is4d a then y <- int_of a ;; m <- int_of b ;; Ok (y, m, 1) else Err ValueError
      | [a; b; c] => if is4d a then y <- int_of a ;; m <- int_of b ;; d <- int_of c ;; Ok (y, m, d) else Err ValueError
      | _ => Err ValueError
      end ;;
    if is_valid_date y m d then Ok (y, m, d) else Err ValueError.
  (** [parse_iso_str], date_parser.py:624-708, and [parse_iso_str_and_timezone], 553-622. *)
  Definition parse_iso (zone_given : option zone) (t : text) : result Z :=
    ts <- tokens_of (chars "/-:") (replace (lower t) (chars " ") (chars "t")) ;;
    let '(dts, rest) := date_tokens ts in
    '(y, m, d) <- iso_date dts ;;
    let z := match zone_given with Some z => z | None => utc end in
    midnight <- (dt <- mk_datetime y m d 0 0 0 ;; z dt) ;;
    match rest with
    | [] => Ok midnight
    | _ =>
        '(tts, rest) <- time_tokens (match zone_given with Some _ => true | None => false end) rest ;;
        '(h, mi, s) <- iso_time tts ;;
        dt <- mk_datetime y m d h mi s ;;
        match zone_given, rest with
        | None, _ :: _ => z <- get_timezone_from_string (concat rest) ;; z dt
        | _, _ => z dt
        end
    end.

  (** *** Other texts *)

  (** [parse_non_iso_time], date_parser.py:806-868. *)
  Definition is_ampm (t : text) : bool := text_eqb t (chars "am") || text_eqb t (chars "pm").
  Fixpoint split_ampm (ts : list text) : list text * list text :=
    match ts with
    | [] => ([], [])
    | t :: ts' => if is_ampm t then ([], ts) else let '(a, b) := split_ampm ts' in (t :: a, b)
    end.
  Definition colon (t : text) : bool := text_eqb t (chars ":").
  Definition non_iso_time (ts : list text) : result (Z * Z * Z) :=
    match ts with
    | [] => Ok (0, 0, 0)
    | _ =>
        let '(time_part, ampm_part) := split_ampm ts in
        '(h, m, s) <-
          match time_part with
          | [a; b; c; d; e] =>
              if colon b && all is_digit c && colon d then
                if all is_digit a && all is_digit e then h <- int_of a ;; m <- int_of c ;; s <- int_of e ;; Ok (h, m, s)
                else Err ValueError
              else Err ValueError
          | [a; b; c] =>
              if all is_digit a && colon b && all is_digit c then h <- int_of a ;; m <- int_of c ;; Ok (h, m, 0)
              else Err ValueError
          | _ => Err ValueError
          end ;;
        h <- match ampm_part with
             | [] => Ok h
             | p :: _ =>
                 if (12 <? h) || (h <? 1) then Err ValueError
                 else Ok (if text_eqb p (chars "am") && (h =? 12) then 0 else if text_eqb p (chars "pm") then h + 12 else h)
             end ;;
        if is_valid_time h m s then Ok (h, m, s) else Err ValueError
    end.

  (** The recognition of a date in [parse_non_iso], date_parser.py:887-1068: year, month, day and the tokens
      that are left for the time. *)
  Definition slashes (ts : list text) : bool := text_eqb (nth 1 ts []) (chars "/") && text_eqb (nth 3 ts []) (chars "/").
  Definition dashes (ts : list text) : bool := text_eqb (nth 1 ts []) (chars "-") && text_eqb (nth 3 ts []) (chars "-").
  Definition non_iso_date (ts : list text) : result (Z * Z * Z * list text) :=
    let tok k := nth k ts [] in
    let len := List.length ts in
    let digits k := all is_digit (tok k) in
    let ymd (y m d : result Z) (from : nat) := yv <- y ;; mv <- m ;; dv <- d ;; Ok (yv, mv, dv, skipn from ts) in
    if (5 <=? len)%nat && is4d (tok 4%nat) then
      if is_month (tok 2%nat) && (slashes ts || dashes ts) then ymd (int_of (tok 4%nat)) (month_to_int (tok 2%nat)) (int_of (tok 0%nat)) 5%nat
      else if is_month (tok 0%nat) && text_eqb (tok 1%nat) (chars "-") && digits 2%nat && text_eqb (tok 3%nat) (chars "-") then
        ymd (int_of (tok 4%nat)) (month_to_int (tok 0%nat)) (int_of (tok 2%nat)) 5%nat
      else if is_month (tok 0%nat) && (slashes ts || dashes ts) then ymd (int_of (tok 4%nat)) (month_to_int (tok 0%nat)) (int_of (tok 2%nat)) 5%nat
      else if ((5 <=? len)%nat && is4d (tok 4%nat) && slashes ts) || (dashes ts && digits 0%nat && digits 2%nat) then
        first <- int_of (tok 0%nat) ;;
        if 12 <? first then ymd (int_of (tok 4%nat)) (int_of (tok 2%nat)) (int_of (tok 0%nat)) 5%nat
        else ymd (int_of (tok 4%nat)) (int_of (tok 0%nat)) (int_of (tok 2%nat)) 5%nat
      else Err ValueError
    else if (5 <=? len)%nat && is4d (tok 0%nat) && is_month (tok 2%nat) && digits 4%nat && (slashes ts || dashes ts) then
      ymd (int_of (tok 0%nat)) (month_to_int (tok 2%nat)) (int_of (tok 4%nat)) 5%nat
    else if (3 <=? len)%nat && is_month (tok 0%nat) && digits 1%nat && is4d (tok 2%nat) then
      ymd (int_of (tok 2%nat)) (month_to_int (tok 0%nat)) (int_of (tok 1%nat)) 3%nat
    else if (3 <=? len)%nat && is_month (tok 1%nat) && digits 0%nat && is4d (tok 2%nat) then
      ymd (int_of (tok 2%nat)) (month_to_int (tok 1%nat)) (int_of (tok 0%nat)) 3%nat
    else if (3 <=? len)%nat && is4d (tok 0%nat) && is_month (tok 1%nat) && digits 2%nat then
      ymd (int_of (tok 0%nat)) (month_to_int (tok 1%nat)) (int_of (tok 2%nat)) 3%nat
    else if (5 <=? len)%nat && is4d (tok 0%nat) && digits 2%nat && digits 4%nat && (slashes ts || dashes ts) then
      ymd (int_of (tok 0%nat)) (int_of (tok 2%nat)) (int_of (tok 4%nat)) 5%nat
    else
      together <- (if (1 <=? len)%nat && (List.length (tok 0%nat) =? 8)%nat && digits 0%nat then
                     match nth_error ts 1 with Some t => Ok (text_eqb t (chars "-")) | None => Err IndexError end
                   else Ok false) ;;
      if (together : bool) then
        ymd (int_of (firstn 4 (tok 0%nat))) (int_of (firstn 2 (skipn 4 (tok 0%nat)))) (int_of (firstn 2 (skipn 6 (tok 0%nat)))) 2%nat
      else if (5 <=? len)%nat && is2d (tok 0%nat) && is2d (tok 4%nat) && is_month (tok 2%nat) && (slashes ts || dashes ts) then
        '(y, m, d, rest) <- ymd (int_of (tok 4%nat)) (month_to_int (tok 2%nat)) (int_of (tok 0%nat)) 5%nat ;;
        Ok (y + (if 1900 <=? y then 1900 else 2000), m, d, rest)
      else Err ValueError.
  (** [parse_non_iso], date_parser.py:870-1075. *)
  Definition parse_non_iso (z : zone) (t : text) : result Z :=
    let t := replace (replace (lower t) (chars "a.m.") (chars "am")) (chars "p.m.") (chars "pm") in
    ts <- tokens_of (chars " ,") t ;;
    '(y, m, d, rest) <- non_iso_date ts ;;
    if negb (is_valid_date y m d) then Err ValueError
    else
      '(h, mi, s) <- non_iso_time rest ;;
      dt <- mk_datetime y m d h mi s ;; z dt.

  (** [parse] and [parse_with_timezone] without a format, date_parser.py:336-366. *)
  Definition parse (t : text) : result Z :=
    match parse_iso None t with Err ValueError => parse_non_iso utc t | r => r end.
  Definition parse_with_timezone (t : text) (z : zone) : result Z :=
    match parse_iso (Some z) t with Err ValueError => parse_non_iso z t | r => r end.
End Parser.
