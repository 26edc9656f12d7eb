(** What UTF-8 is (Unicode 15, section 3.9), apart from the code. *)
From Verif Require Import Base Text_Model.
Open Scope Z_scope.
Open Scope list_scope.

(** The code points that text may have in UTF-8: all up to 0x10FFFF but the surrogates. *)
Definition scalar (c : Z) : Prop := 0 <= c < 55296 \/ 57344 <= c < 1114112.

(** The bytes of one code point. *)
Definition utf8 (c : Z) : list Z :=
  if c <? 128 then [c]
  else if c <? 2048 then [192 + c / 64; 128 + c mod 64]
  else if c <? 65536 then [224 + c / 4096; 128 + c / 64 mod 64; 128 + c mod 64]
  else [240 + c / 262144; 128 + c / 4096 mod 64; 128 + c / 64 mod 64; 128 + c mod 64].

(** [bs] is the UTF-8 of the text [cs]. *)
Definition encodes (cs bs : list Z) : Prop := Forall scalar cs /\ bs = flat_map utf8 cs.

(** Text whose code points fit in its cells of one, two or four bytes, as all text that Python makes does. *)
Definition holds (s : str) : Prop :=
  (swidth s = 1 \/ swidth s = 2 \/ swidth s = 4) /\ Forall (fun c => 0 <= c < 2 ^ (8 * swidth s)) (sdata s).

Definition is_byte (b : Z) : Prop := 0 <= b < 256.
