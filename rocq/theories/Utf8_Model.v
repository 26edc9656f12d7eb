(** Model of the conversion between [str] and its UTF-8 bytes, [str.encode] and [bytes.decode] of compiled code
    (_runtime.cpp, StringType.cpp).  The text of messages is read by the same functions. *)
From Verif Require Import Base Text_Model.
Open Scope Z_scope.
Open Scope list_scope.
Open Scope result_scope.

Definition byte (x : Z) : Z := wrap_u 8 x.

(** ** [str.encode] *)

(** [ErrHandler] and [ErrHandlerFromStr], _runtime.cpp:836-848.  [None] for any other name: then Python's own codec
    does the work.  "replace" is read as "ignore" in the source. *)
Inductive handler := Strict | Ignore | Replace.
Inductive errors := NotGiven | NamedStrict | NamedIgnore | NamedReplace | NamedOther.
Definition handler_of (e : errors) : option handler :=
  match e with
  | NotGiven | NamedStrict => Some Strict
  | NamedIgnore => Some Ignore
  | NamedReplace => Some Ignore
  | NamedOther => None
  end.

(** One round of the loop of [encodeUtf8], _runtime.cpp:914-944. *)
Definition encode_one (h : handler) (c : Z) : result (list Z) :=
  if c <? 128 then Ok [byte c]
  else if c <? 2048 then Ok [byte (Z.lor 192 (Z.shiftr c 6)); byte (Z.lor 128 (Z.land c 63))]
  else if c <? 65536 then
    Ok [byte (Z.lor 224 (Z.shiftr c 12)); byte (Z.lor 128 (Z.land (Z.shiftr c 6) 63)); byte (Z.lor 128 (Z.land c 63))]
  else if c <? 1114112 then
    Ok [byte (Z.lor 240 (Z.shiftr c 18)); byte (Z.lor 128 (Z.land (Z.shiftr c 12) 63));
        byte (Z.lor 128 (Z.land (Z.shiftr c 6) 63)); byte (Z.lor 128 (Z.land c 63))]
  else match h with
       | Replace =>
           Ok [byte (Z.lor 224 (Z.shiftr 65533 12)); byte (Z.lor 128 (Z.land (Z.shiftr 65533 6) 63)); byte (Z.lor 128 (Z.land 65533 63))]
       | Strict => Err ValueError
       | Ignore => Ok nil
       end.
(** The loop, with room for [room] bytes. *)
Fixpoint encode_all (h : handler) (room : Z) (cs out : list Z) : result (list Z) :=
  match cs with
  | nil => Ok out
  | c :: r =>
      bs <- encode_one h c ;;
      if zlen (out ++ bs) <=? room then encode_all h room r (out ++ bs) else Err UndefinedBehaviour
  end.

(** [encodeUtf8], _runtime.cpp:901-955.  The bytes that are not used are given back at the end. *)
Definition encode_room (s : str) : Z :=
  match s with
  | None => 0
  | Some l => zlen (codepoints l) * (if bytes_per_codepoint l <? 4 then bytes_per_codepoint l + 1 else 4)
  end.
Definition encode_utf8 (s : str) (h : handler) : result bytes :=
  match s with
  | None => Ok (Some nil)
  | Some l => bs <- encode_all h (encode_room s) (codepoints l) nil ;; Ok (Some bs)
  end.

(** [nativepython_runtime_str_encode], 957-1000, for the encodings that are named "utf-8", "utf_8" or "utf8" or not
    named.  [None]: Python's own codec does the work. *)
Definition str_encode (s : str) (e : errors) : option (result bytes) :=
  match handler_of e with Some h => Some (encode_utf8 s h) | None => None end.

(** ** Decoding *)

(** The number of bytes of the sequence that [b] begins, by the tests that all three loops make. *)
Definition sequence_length (b : Z) : option Z :=
  if Z.shiftr b 7 =? 0 then Some 1
  else if Z.shiftr b 5 =? 6 then Some 2
  else if Z.shiftr b 4 =? 14 then Some 3
  else if Z.shiftr b 3 =? 30 then Some 4
  else None.

(** [countUtf8Codepoints], StringType.cpp:1222-1243. *)
Fixpoint count_points (fuel : nat) (bs : list Z) (k result : Z) : Base.result Z :=
  match fuel with
  | O => Err OutOfFuel
  | S fuel =>
      if k <? zlen bs then
        b <- cread bs k ;;
        match sequence_length b with
        | Some n => count_points fuel bs (k + n) (result + 1)
        | None => Err GenericError
        end
      else Ok result
  end.

(** [bytesPerCodepointRequiredForUtf8], 1196-1220; [length] counts code points. *)
Definition width_of_sequence (n : Z) : Z := if n =? 1 then 1 else if n =? 4 then 4 else 2.
Fixpoint width_required (length : nat) (bs : list Z) (k width : Z) : result Z :=
  match length with
  | O => Ok width
  | S length =>
      b <- cread bs k ;;
      match sequence_length b with
      | Some n => width_required length bs (k + n) (Z.max (width_of_sequence n) width)
      | None => Err GenericError
      end
  end.

(** [decodeUtf8ToTyped], 1245-1282, into cells of [width] bytes.  A byte that begins no sequence is tried again for
    ever. *)
Definition decode_sequence (bs : list Z) (k n b : Z) : result Z :=
  if n =? 1 then Ok b
  else if n =? 2 then c <- cread bs (k + 1) ;; Ok (Z.shiftl (Z.land b 31) 6 + Z.land c 63)
  else if n =? 3 then
    c <- cread bs (k + 1) ;; d <- cread bs (k + 2) ;;
    Ok (Z.shiftl (Z.land b 15) 12 + Z.shiftl (Z.land c 63) 6 + Z.land d 63)
  else
    c <- cread bs (k + 1) ;; d <- cread bs (k + 2) ;; e <- cread bs (k + 3) ;;
    Ok (Z.shiftl (Z.land b 7) 18 + Z.shiftl (Z.land c 63) 12 + Z.shiftl (Z.land d 63) 6 + Z.land e 63).
Fixpoint decode_to (width : Z) (length : nat) (bs : list Z) (k : Z) : result (list Z) :=
  match length with
  | O => Ok nil
  | S length =>
      b <- cread bs k ;;
      match sequence_length b with
      | Some n =>
          c <- decode_sequence bs k n b ;;
          r <- decode_to width length bs (k + n) ;;
          Ok (wrap_u (8 * width) c :: r)
      | None => Err OutOfFuel
      end
  end.

(** [createFromUtf8], 1314-1336; [length] counts code points. *)
Definition create_from_utf8 (bs : list Z) (length : Z) : result str :=
  if length =? 0 then Ok None
  else
    width <- width_required (Z.to_nat length) bs 0 1 ;;
    if width =? 1 then
      if length <=? zlen bs then Ok (Some (mk_slayout 1 (firstn (Z.to_nat length) bs))) else Err UndefinedBehaviour
    else
      cs <- decode_to width (Z.to_nat length) bs 0 ;;
      Ok (Some (mk_slayout width cs)).

(** [nativepython_runtime_bytes_decode], _runtime.cpp:850-899, for the encodings that are named "utf-8", "utf_8" or
    "utf8" or not named.  The handler is not used.  [None]: Python's own codec does the work. *)
Definition bytes_decode (x : bytes) (e : errors) : option (result str) :=
  match handler_of e with
  | Some _ =>
      Some (match x with
            | None => create_from_utf8 nil 0
            | Some bs => n <- count_points (S (length bs)) bs 0 0 ;; create_from_utf8 bs n
            end)
  | None => None
  end.
