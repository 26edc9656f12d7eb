(** The table of the properties of code points that typed_python is built with: [uprops_runlength],
    UnicodeProps_3.7.4.hpp:32-237, which UnicodeProps.hpp:27-31 includes for all versions of Python from 3.7 on.  Each
    pair is a value and the number of consecutive code points that have it.  Copied by a script. *)
From Coq Require Import List ZArith.
Import ListNotations.
Open Scope Z_scope.

Definition uprops_runlength : list (Z * Z) := [
(0, 9); (64, 5); (0, 14); (64, 4); (192, 1); (128, 15); (184, 10); (128, 7); (133, 26); (128, 6); (131, 26); (128, 4); (0, 6); (64, 1); (0, 26); (64, 1);
(128, 9); (131, 1); (128, 2); (0, 1); (128, 4); (176, 2); (128, 1); (131, 1); (128, 3); (176, 1); (131, 1); (128, 1); (160, 3); (128, 1); (133, 23); (128, 1);
(133, 7); (131, 24); (128, 1); (131, 8); (133, 1); (131, 1); (133, 1); (131, 1); (133, 1); (131, 1); (133, 1); (131, 1); (133, 1); (131, 1); (133, 1); (131, 1);
(133, 1); (131, 1); (133, 1); (131, 1); (133, 1); (131, 1); (133, 1); (131, 1); (133, 1); (131, 1); (133, 1); (131, 1); (133, 1); (131, 1); (133, 1); (131, 1);
(133, 1); (131, 1); (133, 1); (131, 1); (133, 1); (131, 1); (133, 1); (131, 1); (133, 1); (131, 1); (133, 1); (131, 1); (133, 1); (131, 1); (133, 1); (131, 1);
(133, 1); (131, 1); (133, 1); (131, 1); (133, 1); (131, 1); (133, 1); (131, 1); (133, 1); (131, 1); (133, 1); (131, 2); (133, 1); (131, 1); (133, 1); (131, 1);
(133, 1); (131, 1); (133, 1); (131, 1); (133, 1); (131, 1); (133, 1); (131, 1); (133, 1); (131, 1); (133, 1); (131, 2); (133, 1); (131, 1); (133, 1); (131, 1);
(133, 1); (131, 1); (133, 1); (131, 1); (133, 1); (131, 1); (133, 1); (131, 1); (133, 1); (131, 1); (133, 1); (131, 1); (133, 1); (131, 1); (133, 1); (131, 1);
(133, 1); (131, 1); (133, 1); (131, 1); (133, 1); (131, 1); (133, 1); (131, 1); (133, 1); (131, 1); (133, 1); (131, 1); (133, 1); (131, 1); (133, 1); (131, 1);
(133, 1); (131, 1); (133, 1); (131, 1); (133, 1); (131, 1); (133, 1); (131, 1); (133, 1); (131, 1); (133, 2); (131, 1); (133, 1); (131, 1); (133, 1); (131, 3);
(133, 2); (131, 1); (133, 1); (131, 1); (133, 2); (131, 1); (133, 3); (131, 2); (133, 4); (131, 1); (133, 2); (131, 1); (133, 3); (131, 3); (133, 2); (131, 1);
(133, 2); (131, 1); (133, 1); (131, 1); (133, 1); (131, 1); (133, 2); (131, 1); (133, 1); (131, 2); (133, 1); (131, 1); (133, 2); (131, 1); (133, 3); (131, 1);
(133, 1); (131, 1); (133, 2); (131, 2); (129, 1); (133, 1); (131, 3); (129, 4); (133, 1); (385, 1); (131, 1); (133, 1); (385, 1); (131, 1); (133, 1); (385, 1);
(131, 1); (133, 1); (131, 1); (133, 1); (131, 1); (133, 1); (131, 1); (133, 1); (131, 1); (133, 1); (131, 1); (133, 1); (131, 1); (133, 1); (131, 1); (133, 1);
(131, 2); (133, 1); (131, 1); (133, 1); (131, 1); (133, 1); (131, 1); (133, 1); (131, 1); (133, 1); (131, 1); (133, 1); (131, 1); (133, 1); (131, 1); (133, 1);
(131, 1); (133, 1); (131, 2); (133, 1); (385, 1); (131, 1); (133, 1); (131, 1); (133, 3); (131, 1); (133, 1); (131, 1); (133, 1); (131, 1); (133, 1); (131, 1);
(133, 1); (131, 1); (133, 1); (131, 1); (133, 1); (131, 1); (133, 1); (131, 1); (133, 1); (131, 1); (133, 1); (131, 1); (133, 1); (131, 1); (133, 1); (131, 1);
(133, 1); (131, 1); (133, 1); (131, 1); (133, 1); (131, 1); (133, 1); (131, 1); (133, 1); (131, 1); (133, 1); (131, 1); (133, 1); (131, 1); (133, 1); (131, 1);
(133, 1); (131, 1); (133, 1); (131, 1); (133, 1); (131, 1); (133, 1); (131, 1); (133, 1); (131, 1); (133, 1); (131, 1); (133, 1); (131, 1); (133, 1); (131, 1);
(133, 1); (131, 1); (133, 1); (131, 7); (133, 2); (131, 1); (133, 2); (131, 2); (133, 1); (131, 1); (133, 4); (131, 1); (133, 1); (131, 1); (133, 1); (131, 1);
(133, 1); (131, 1); (133, 1); (131, 69); (129, 1); (131, 36); (129, 7); (131, 2); (128, 4); (129, 12); (128, 14); (131, 5); (128, 7); (129, 1); (128, 1); (129, 1);
(128, 86); (130, 1); (128, 42); (133, 1); (131, 1); (133, 1); (131, 1); (129, 1); (128, 1); (133, 1); (131, 1); (0, 2); (131, 4); (128, 1); (133, 1); (0, 4);
(128, 2); (133, 1); (128, 1); (133, 3); (0, 1); (133, 1); (0, 1); (133, 2); (131, 1); (133, 17); (0, 1); (133, 9); (131, 35); (133, 1); (131, 2); (133, 3);
(131, 3); (133, 1); (131, 1); (133, 1); (131, 1); (133, 1); (131, 1); (133, 1); (131, 1); (133, 1); (131, 1); (133, 1); (131, 1); (133, 1); (131, 1); (133, 1);
(131, 1); (133, 1); (131, 1); (133, 1); (131, 1); (133, 1); (131, 1); (133, 1); (131, 5); (133, 1); (131, 1); (128, 1); (133, 1); (131, 1); (133, 2); (131, 2);
(133, 51); (131, 48); (133, 1); (131, 1); (133, 1); (131, 1); (133, 1); (131, 1); (133, 1); (131, 1); (133, 1); (131, 1); (133, 1); (131, 1); (133, 1); (131, 1);
(133, 1); (131, 1); (133, 1); (131, 1); (133, 1); (131, 1); (133, 1); (131, 1); (133, 1); (131, 1); (133, 1); (131, 1); (133, 1); (131, 1); (133, 1); (131, 1);
(133, 1); (131, 1); (133, 1); (131, 1); (128, 8); (133, 1); (131, 1); (133, 1); (131, 1); (133, 1); (131, 1); (133, 1); (131, 1); (133, 1); (131, 1); (133, 1);
(131, 1); (133, 1); (131, 1); (133, 1); (131, 1); (133, 1); (131, 1); (133, 1); (131, 1); (133, 1); (131, 1); (133, 1); (131, 1); (133, 1); (131, 1); (133, 1);
(131, 1); (133, 1); (131, 1); (133, 1); (131, 1); (133, 1); (131, 1); (133, 1); (131, 1); (133, 1); (131, 1); (133, 1); (131, 1); (133, 1); (131, 1); (133, 1);
(131, 1); (133, 1); (131, 1); (133, 1); (131, 1); (133, 1); (131, 1); (133, 1); (131, 1); (133, 1); (131, 1); (133, 2); (131, 1); (133, 1); (131, 1); (133, 1);
(131, 1); (133, 1); (131, 1); (133, 1); (131, 1); (133, 1); (131, 1); (133, 1); (131, 2); (133, 1); (131, 1); (133, 1); (131, 1); (133, 1); (131, 1); (133, 1);
(131, 1); (133, 1); (131, 1); (133, 1); (131, 1); (133, 1); (131, 1); (133, 1); (131, 1); (133, 1); (131, 1); (133, 1); (131, 1); (133, 1); (131, 1); (133, 1);
(131, 1); (133, 1); (131, 1); (133, 1); (131, 1); (133, 1); (131, 1); (133, 1); (131, 1); (133, 1); (131, 1); (133, 1); (131, 1); (133, 1); (131, 1); (133, 1);
(131, 1); (133, 1); (131, 1); (133, 1); (131, 1); (133, 1); (131, 1); (133, 1); (131, 1); (133, 1); (131, 1); (133, 1); (131, 1); (133, 1); (131, 1); (133, 1);
(131, 1); (133, 1); (131, 1); (133, 1); (131, 1); (133, 1); (131, 1); (133, 1); (131, 1); (133, 1); (131, 1); (133, 1); (131, 1); (133, 1); (131, 1); (133, 1);
(131, 1); (133, 1); (131, 1); (133, 1); (131, 1); (133, 1); (131, 1); (133, 1); (131, 1); (133, 1); (131, 1); (133, 1); (131, 1); (133, 1); (131, 1); (133, 1);
(131, 1); (133, 1); (131, 1); (133, 1); (131, 1); (133, 1); (131, 1); (133, 1); (131, 1); (0, 1); (133, 38); (0, 2); (129, 1); (128, 6); (131, 41); (128, 2);
(0, 2); (128, 3); (0, 1); (128, 55); (0, 8); (129, 27); (0, 4); (129, 4); (128, 2); (0, 17); (128, 22); (0, 2); (128, 2); (129, 43); (128, 21); (184, 10);
(128, 4); (129, 2); (128, 1); (129, 99); (128, 1); (129, 1); (128, 7); (0, 1); (128, 7); (129, 2); (128, 7); (129, 2); (184, 10); (129, 3); (128, 2); (129, 1);
(128, 14); (0, 2); (129, 1); (128, 1); (129, 30); (128, 27); (0, 2); (129, 89); (128, 11); (129, 1); (0, 14); (184, 10); (129, 33); (128, 9); (129, 2); (128, 4);
(129, 1); (0, 2); (128, 3); (129, 22); (128, 4); (129, 1); (128, 9); (129, 1); (128, 3); (129, 1); (128, 5); (0, 2); (128, 15); (0, 1); (129, 25); (128, 3);
(0, 2); (128, 1); (0, 1); (129, 11); (0, 53); (129, 21); (0, 1); (129, 8); (0, 21); (128, 15); (0, 1); (128, 33); (129, 54); (128, 3); (129, 1); (128, 18);
(129, 1); (128, 7); (129, 10); (128, 4); (184, 10); (128, 1); (129, 16); (128, 3); (0, 1); (129, 8); (0, 2); (129, 2); (0, 2); (129, 22); (0, 1); (129, 7);
(0, 1); (129, 1); (0, 3); (129, 4); (0, 2); (128, 1); (129, 1); (128, 7); (0, 2); (128, 2); (0, 2); (128, 3); (129, 1); (0, 8); (128, 1); (0, 4);
(129, 2); (0, 1); (129, 3); (128, 2); (0, 2); (184, 10); (129, 2); (128, 2); (160, 6); (128, 2); (129, 1); (128, 2); (0, 2); (128, 3); (0, 1); (129, 6);
(0, 4); (129, 2); (0, 2); (129, 22); (0, 1); (129, 7); (0, 1); (129, 2); (0, 1); (129, 2); (0, 1); (129, 2); (0, 2); (128, 1); (0, 1); (128, 5);
(0, 4); (128, 2); (0, 2); (128, 3); (0, 3); (128, 1); (0, 7); (129, 4); (0, 1); (129, 1); (0, 7); (184, 10); (128, 2); (129, 3); (128, 2); (0, 10);
(128, 3); (0, 1); (129, 9); (0, 1); (129, 3); (0, 1); (129, 22); (0, 1); (129, 7); (0, 1); (129, 2); (0, 1); (129, 5); (0, 2); (128, 1); (129, 1);
(128, 8); (0, 1); (128, 3); (0, 1); (128, 3); (0, 2); (129, 1); (0, 15); (129, 2); (128, 2); (0, 2); (184, 10); (128, 2); (0, 7); (129, 1); (128, 6);
(0, 1); (128, 3); (0, 1); (129, 8); (0, 2); (129, 2); (0, 2); (129, 22); (0, 1); (129, 7); (0, 1); (129, 2); (0, 1); (129, 5); (0, 2); (128, 1);
(129, 1); (128, 7); (0, 2); (128, 2); (0, 2); (128, 3); (0, 8); (128, 2); (0, 4); (129, 2); (0, 1); (129, 3); (128, 2); (0, 2); (184, 10); (128, 1);
(129, 1); (160, 6); (0, 10); (128, 1); (129, 1); (0, 1); (129, 6); (0, 3); (129, 3); (0, 1); (129, 4); (0, 3); (129, 2); (0, 1); (129, 1); (0, 1);
(129, 2); (0, 3); (129, 2); (0, 3); (129, 3); (0, 3); (129, 12); (0, 4); (128, 5); (0, 3); (128, 3); (0, 1); (128, 4); (0, 2); (129, 1); (0, 6);
(128, 1); (0, 14); (184, 10); (160, 3); (128, 8); (0, 5); (128, 5); (129, 8); (0, 1); (129, 3); (0, 1); (129, 23); (0, 1); (129, 16); (0, 3); (129, 1);
(128, 7); (0, 1); (128, 3); (0, 1); (128, 4); (0, 7); (128, 2); (0, 1); (129, 3); (0, 5); (129, 2); (128, 2); (0, 2); (184, 10); (0, 8); (160, 7);
(128, 1); (129, 1); (128, 4); (129, 8); (0, 1); (129, 3); (0, 1); (129, 23); (0, 1); (129, 10); (0, 1); (129, 5); (0, 2); (128, 1); (129, 1); (128, 7);
(0, 1); (128, 3); (0, 1); (128, 4); (0, 7); (128, 2); (0, 7); (129, 1); (0, 1); (129, 2); (128, 2); (0, 2); (184, 10); (0, 1); (129, 2); (0, 13);
(128, 4); (0, 1); (129, 8); (0, 1); (129, 3); (0, 1); (129, 41); (128, 2); (129, 1); (128, 7); (0, 1); (128, 3); (0, 1); (128, 4); (129, 1); (128, 1);
(0, 4); (129, 3); (128, 1); (160, 7); (129, 3); (128, 2); (0, 2); (184, 10); (160, 9); (128, 1); (129, 6); (0, 2); (128, 2); (0, 1); (129, 18); (0, 3);
(129, 24); (0, 1); (129, 9); (0, 1); (129, 1); (0, 2); (129, 7); (0, 3); (128, 1); (0, 4); (128, 6); (0, 1); (128, 1); (0, 1); (128, 8); (0, 6);
(184, 10); (0, 2); (128, 3); (0, 12); (129, 48); (128, 1); (129, 2); (128, 7); (0, 4); (128, 1); (129, 7); (128, 9); (184, 10); (128, 2); (0, 37); (129, 2);
(0, 1); (129, 1); (0, 2); (129, 2); (0, 1); (129, 1); (0, 2); (129, 1); (0, 6); (129, 4); (0, 1); (129, 7); (0, 1); (129, 3); (0, 1); (129, 1);
(0, 1); (129, 1); (0, 2); (129, 2); (0, 1); (129, 4); (128, 1); (129, 2); (128, 6); (0, 1); (128, 2); (129, 1); (0, 2); (129, 5); (0, 1); (129, 1);
(0, 1); (128, 6); (0, 2); (184, 10); (0, 2); (129, 4); (0, 32); (129, 1); (128, 31); (184, 10); (160, 10); (128, 12); (129, 8); (0, 1); (129, 36); (0, 4);
(128, 23); (129, 5); (128, 11); (0, 1); (128, 36); (0, 1); (128, 15); (0, 1); (128, 13); (0, 37); (129, 43); (128, 20); (129, 1); (184, 10); (128, 6); (129, 6);
(128, 4); (129, 4); (128, 3); (129, 1); (128, 3); (129, 2); (128, 7); (129, 3); (128, 4); (129, 13); (128, 12); (129, 1); (128, 1); (184, 10); (128, 6); (133, 38);
(0, 1); (133, 1); (0, 5); (133, 1); (0, 2); (131, 43); (128, 1); (129, 1); (131, 3); (129, 329); (0, 1); (129, 4); (0, 2); (129, 7); (0, 1); (129, 1);
(0, 1); (129, 4); (0, 2); (129, 41); (0, 1); (129, 4); (0, 2); (129, 33); (0, 1); (129, 4); (0, 2); (129, 7); (0, 1); (129, 1); (0, 1); (129, 4);
(0, 2); (129, 15); (0, 1); (129, 57); (0, 1); (129, 4); (0, 2); (129, 67); (0, 2); (128, 12); (176, 9); (160, 11); (0, 3); (129, 16); (128, 10); (0, 6);
(133, 86); (0, 2); (131, 6); (0, 2); (128, 1); (129, 620); (128, 2); (129, 17); (64, 1); (129, 26); (128, 2); (0, 3); (129, 75); (128, 3); (160, 3); (129, 8);
(0, 7); (129, 13); (0, 1); (129, 4); (128, 3); (0, 11); (129, 18); (128, 5); (0, 9); (129, 18); (128, 2); (0, 12); (129, 13); (0, 1); (129, 3); (0, 1);
(128, 2); (0, 12); (129, 52); (128, 35); (129, 1); (128, 4); (129, 1); (128, 1); (0, 2); (184, 10); (0, 6); (160, 10); (0, 6); (128, 14); (0, 2); (184, 10);
(0, 6); (129, 89); (0, 7); (129, 5); (128, 2); (129, 34); (128, 1); (129, 1); (0, 5); (129, 70); (0, 10); (129, 31); (0, 1); (128, 12); (0, 4); (128, 12);
(0, 4); (128, 1); (0, 3); (128, 2); (184, 10); (129, 30); (0, 2); (129, 5); (0, 11); (129, 44); (0, 4); (129, 26); (0, 6); (184, 10); (176, 1); (0, 3);
(128, 34); (129, 23); (128, 5); (0, 2); (128, 2); (129, 53); (128, 10); (0, 1); (128, 29); (0, 2); (128, 1); (184, 10); (0, 6); (184, 10); (0, 6); (128, 7);
(129, 1); (128, 6); (0, 2); (128, 15); (0, 65); (128, 5); (129, 47); (128, 17); (129, 7); (0, 4); (184, 10); (128, 35); (0, 3); (128, 3); (129, 30); (128, 13);
(129, 2); (184, 10); (129, 44); (128, 14); (0, 8); (128, 4); (129, 36); (128, 20); (0, 3); (128, 5); (184, 10); (0, 3); (129, 3); (184, 10); (129, 36); (128, 2);
(131, 9); (0, 7); (133, 43); (0, 2); (133, 3); (128, 8); (0, 8); (128, 25); (129, 4); (128, 1); (129, 4); (128, 3); (129, 2); (128, 3); (0, 6); (131, 192);
(128, 58); (0, 1); (128, 5); (133, 1); (131, 1); (133, 1); (131, 1); (133, 1); (131, 1); (133, 1); (131, 1); (133, 1); (131, 1); (133, 1); (131, 1); (133, 1);
(131, 1); (133, 1); (131, 1); (133, 1); (131, 1); (133, 1); (131, 1); (133, 1); (131, 1); (133, 1); (131, 1); (133, 1); (131, 1); (133, 1); (131, 1); (133, 1);
(131, 1); (133, 1); (131, 1); (133, 1); (131, 1); (133, 1); (131, 1); (133, 1); (131, 1); (133, 1); (131, 1); (133, 1); (131, 1); (133, 1); (131, 1); (133, 1);
(131, 1); (133, 1); (131, 1); (133, 1); (131, 1); (133, 1); (131, 1); (133, 1); (131, 1); (133, 1); (131, 1); (133, 1); (131, 1); (133, 1); (131, 1); (133, 1);
(131, 1); (133, 1); (131, 1); (133, 1); (131, 1); (133, 1); (131, 1); (133, 1); (131, 1); (133, 1); (131, 1); (133, 1); (131, 1); (133, 1); (131, 1); (133, 1);
(131, 1); (133, 1); (131, 1); (133, 1); (131, 1); (133, 1); (131, 1); (133, 1); (131, 1); (133, 1); (131, 1); (133, 1); (131, 1); (133, 1); (131, 1); (133, 1);
(131, 1); (133, 1); (131, 1); (133, 1); (131, 1); (133, 1); (131, 1); (133, 1); (131, 1); (133, 1); (131, 1); (133, 1); (131, 1); (133, 1); (131, 1); (133, 1);
(131, 1); (133, 1); (131, 1); (133, 1); (131, 1); (133, 1); (131, 1); (133, 1); (131, 1); (133, 1); (131, 1); (133, 1); (131, 1); (133, 1); (131, 1); (133, 1);
(131, 1); (133, 1); (131, 1); (133, 1); (131, 1); (133, 1); (131, 1); (133, 1); (131, 1); (133, 1); (131, 1); (133, 1); (131, 1); (133, 1); (131, 1); (133, 1);
(131, 1); (133, 1); (131, 1); (133, 1); (131, 1); (133, 1); (131, 1); (133, 1); (131, 9); (133, 1); (131, 1); (133, 1); (131, 1); (133, 1); (131, 1); (133, 1);
(131, 1); (133, 1); (131, 1); (133, 1); (131, 1); (133, 1); (131, 1); (133, 1); (131, 1); (133, 1); (131, 1); (133, 1); (131, 1); (133, 1); (131, 1); (133, 1);
(131, 1); (133, 1); (131, 1); (133, 1); (131, 1); (133, 1); (131, 1); (133, 1); (131, 1); (133, 1); (131, 1); (133, 1); (131, 1); (133, 1); (131, 1); (133, 1);
(131, 1); (133, 1); (131, 1); (133, 1); (131, 1); (133, 1); (131, 1); (133, 1); (131, 1); (133, 1); (131, 1); (133, 1); (131, 1); (133, 1); (131, 1); (133, 1);
(131, 1); (133, 1); (131, 1); (133, 1); (131, 1); (133, 1); (131, 1); (133, 1); (131, 1); (133, 1); (131, 1); (133, 1); (131, 1); (133, 1); (131, 1); (133, 1);
(131, 1); (133, 1); (131, 1); (133, 1); (131, 1); (133, 1); (131, 1); (133, 1); (131, 1); (133, 1); (131, 1); (133, 1); (131, 1); (133, 1); (131, 1); (133, 1);
(131, 1); (133, 1); (131, 1); (133, 1); (131, 1); (133, 1); (131, 1); (133, 1); (131, 1); (133, 1); (131, 9); (133, 8); (131, 6); (0, 2); (133, 6); (0, 2);
(131, 8); (133, 8); (131, 8); (133, 8); (131, 6); (0, 2); (133, 6); (0, 2); (131, 8); (0, 1); (133, 1); (0, 1); (133, 1); (0, 1); (133, 1); (0, 1);
(133, 1); (131, 8); (133, 8); (131, 14); (0, 2); (131, 8); (385, 8); (131, 8); (385, 8); (131, 8); (385, 8); (131, 5); (0, 1); (131, 2); (133, 4); (385, 1);
(128, 1); (131, 1); (128, 3); (131, 3); (0, 1); (131, 2); (133, 4); (385, 1); (128, 3); (131, 4); (0, 2); (131, 2); (133, 4); (0, 1); (128, 3); (131, 8);
(133, 5); (128, 3); (0, 2); (131, 3); (0, 1); (131, 2); (133, 4); (385, 1); (128, 2); (0, 1); (64, 11); (0, 5); (128, 24); (64, 2); (0, 5); (64, 1);
(128, 47); (64, 1); (0, 16); (176, 1); (131, 1); (0, 2); (176, 6); (128, 5); (131, 1); (176, 10); (128, 5); (0, 1); (131, 13); (0, 3); (128, 32); (0, 16);
(128, 33); (0, 15); (128, 2); (133, 1); (128, 4); (133, 1); (128, 2); (131, 1); (133, 3); (131, 2); (133, 3); (131, 1); (128, 1); (133, 1); (128, 3); (133, 5);
(128, 6); (133, 1); (128, 1); (133, 1); (128, 1); (133, 1); (128, 1); (133, 4); (128, 1); (131, 1); (133, 4); (131, 1); (129, 4); (131, 1); (128, 2); (131, 2);
(133, 2); (128, 5); (133, 1); (131, 4); (128, 4); (131, 1); (128, 1); (160, 16); (164, 16); (162, 16); (160, 3); (133, 1); (131, 1); (160, 5); (128, 2); (0, 4);
(128, 663); (0, 25); (128, 11); (0, 21); (176, 9); (160, 11); (176, 9); (160, 11); (176, 9); (160, 11); (128, 26); (132, 26); (130, 26); (176, 1); (160, 10); (176, 9);
(160, 1); (176, 1); (128, 630); (176, 9); (160, 1); (176, 9); (160, 1); (176, 9); (160, 1); (128, 992); (0, 2); (128, 32); (0, 2); (128, 49); (0, 1); (128, 53);
(0, 1); (133, 47); (0, 1); (131, 47); (0, 1); (133, 1); (131, 1); (133, 3); (131, 2); (133, 1); (131, 1); (133, 1); (131, 1); (133, 1); (131, 1); (133, 4);
(131, 1); (133, 1); (131, 2); (133, 1); (131, 8); (133, 3); (131, 1); (133, 1); (131, 1); (133, 1); (131, 1); (133, 1); (131, 1); (133, 1); (131, 1); (133, 1);
(131, 1); (133, 1); (131, 1); (133, 1); (131, 1); (133, 1); (131, 1); (133, 1); (131, 1); (133, 1); (131, 1); (133, 1); (131, 1); (133, 1); (131, 1); (133, 1);
(131, 1); (133, 1); (131, 1); (133, 1); (131, 1); (133, 1); (131, 1); (133, 1); (131, 1); (133, 1); (131, 1); (133, 1); (131, 1); (133, 1); (131, 1); (133, 1);
(131, 1); (133, 1); (131, 1); (133, 1); (131, 1); (133, 1); (131, 1); (133, 1); (131, 1); (133, 1); (131, 1); (133, 1); (131, 1); (133, 1); (131, 1); (133, 1);
(131, 1); (133, 1); (131, 1); (133, 1); (131, 1); (133, 1); (131, 1); (133, 1); (131, 1); (133, 1); (131, 1); (133, 1); (131, 1); (133, 1); (131, 1); (133, 1);
(131, 1); (133, 1); (131, 1); (133, 1); (131, 1); (133, 1); (131, 1); (133, 1); (131, 1); (133, 1); (131, 1); (133, 1); (131, 1); (133, 1); (131, 1); (133, 1);
(131, 1); (133, 1); (131, 1); (133, 1); (131, 1); (133, 1); (131, 1); (133, 1); (131, 2); (128, 6); (133, 1); (131, 1); (133, 1); (131, 1); (128, 3); (133, 1);
(131, 1); (0, 5); (128, 4); (160, 1); (128, 2); (131, 38); (0, 1); (131, 1); (0, 5); (131, 1); (0, 2); (129, 56); (0, 7); (129, 1); (128, 1); (0, 14);
(128, 1); (129, 23); (0, 9); (129, 7); (0, 1); (129, 7); (0, 1); (129, 7); (0, 1); (129, 7); (0, 1); (129, 7); (0, 1); (129, 7); (0, 1); (129, 7);
(0, 1); (129, 7); (0, 1); (128, 79); (129, 1); (128, 31); (0, 49); (128, 26); (0, 1); (128, 89); (0, 12); (128, 214); (0, 26); (128, 12); (0, 4); (64, 1);
(128, 4); (129, 2); (160, 1); (128, 25); (160, 9); (128, 7); (129, 5); (128, 2); (160, 3); (129, 2); (128, 3); (0, 1); (129, 86); (0, 2); (128, 4); (129, 3);
(128, 1); (129, 90); (128, 1); (129, 4); (0, 5); (129, 43); (0, 1); (129, 94); (0, 1); (128, 2); (160, 4); (128, 10); (129, 27); (0, 5); (128, 36); (0, 12);
(129, 16); (128, 31); (0, 1); (160, 10); (128, 30); (160, 8); (128, 1); (160, 15); (128, 32); (160, 10); (128, 39); (160, 15); (128, 63); (0, 1); (128, 256); (129, 5);
(161, 1); (129, 125); (161, 1); (129, 934); (161, 1); (129, 802); (161, 1); (129, 4712); (0, 10); (128, 64); (161, 1); (129, 2); (161, 1); (129, 3); (161, 1); (129, 1);
(161, 1); (129, 83); (161, 1); (129, 46); (161, 1); (129, 7); (161, 1); (129, 1); (161, 1); (129, 40); (161, 2); (129, 30); (161, 1); (129, 8); (161, 1); (129, 36);
(161, 1); (129, 98); (161, 1); (129, 403); (161, 1); (129, 65); (161, 1); (129, 34); (161, 1); (129, 1); (161, 1); (129, 1); (161, 1); (129, 467); (161, 1); (129, 1);
(161, 3); (129, 6); (161, 1); (129, 116); (161, 4); (129, 790); (161, 1); (129, 533); (161, 1); (129, 7); (161, 1); (129, 1408); (161, 1); (129, 131); (161, 2); (129, 12);
(161, 3); (129, 1); (161, 1); (129, 1005); (161, 1); (129, 77); (161, 1); (129, 1157); (161, 1); (129, 1843); (161, 1); (129, 1167); (161, 1); (129, 743); (161, 1); (129, 2567);
(161, 1); (129, 933); (161, 1); (129, 2177); (161, 1); (129, 4); (161, 1); (129, 124); (161, 1); (129, 2288); (161, 1); (129, 36); (161, 1); (129, 5); (161, 1); (129, 43);
(161, 1); (129, 125); (161, 1); (129, 2297); (0, 16); (129, 1165); (0, 3); (128, 55); (0, 9); (129, 46); (128, 2); (129, 269); (128, 3); (129, 16); (184, 10); (129, 2);
(0, 20); (133, 1); (131, 1); (133, 1); (131, 1); (133, 1); (131, 1); (133, 1); (131, 1); (133, 1); (131, 1); (133, 1); (131, 1); (133, 1); (131, 1); (133, 1);
(131, 1); (133, 1); (131, 1); (133, 1); (131, 1); (133, 1); (131, 1); (133, 1); (131, 1); (133, 1); (131, 1); (133, 1); (131, 1); (133, 1); (131, 1); (133, 1);
(131, 1); (133, 1); (131, 1); (133, 1); (131, 1); (133, 1); (131, 1); (133, 1); (131, 1); (133, 1); (131, 1); (133, 1); (131, 1); (133, 1); (131, 1); (129, 1);
(128, 16); (129, 1); (133, 1); (131, 1); (133, 1); (131, 1); (133, 1); (131, 1); (133, 1); (131, 1); (133, 1); (131, 1); (133, 1); (131, 1); (133, 1); (131, 1);
(133, 1); (131, 1); (133, 1); (131, 1); (133, 1); (131, 1); (133, 1); (131, 1); (133, 1); (131, 1); (133, 1); (131, 1); (133, 1); (131, 3); (128, 2); (129, 70);
(160, 10); (128, 8); (0, 8); (128, 23); (129, 9); (128, 2); (133, 1); (131, 1); (133, 1); (131, 1); (133, 1); (131, 1); (133, 1); (131, 1); (133, 1); (131, 1);
(133, 1); (131, 1); (133, 1); (131, 3); (133, 1); (131, 1); (133, 1); (131, 1); (133, 1); (131, 1); (133, 1); (131, 1); (133, 1); (131, 1); (133, 1); (131, 1);
(133, 1); (131, 1); (133, 1); (131, 1); (133, 1); (131, 1); (133, 1); (131, 1); (133, 1); (131, 1); (133, 1); (131, 1); (133, 1); (131, 1); (133, 1); (131, 1);
(133, 1); (131, 1); (133, 1); (131, 1); (133, 1); (131, 1); (133, 1); (131, 1); (133, 1); (131, 1); (133, 1); (131, 1); (133, 1); (131, 1); (133, 1); (131, 1);
(133, 1); (131, 1); (133, 1); (131, 1); (133, 1); (131, 1); (133, 1); (131, 1); (133, 1); (131, 1); (133, 1); (131, 1); (133, 1); (131, 1); (133, 1); (131, 1);
(133, 1); (131, 10); (133, 1); (131, 1); (133, 1); (131, 1); (133, 2); (131, 1); (133, 1); (131, 1); (133, 1); (131, 1); (133, 1); (131, 1); (133, 1); (131, 1);
(129, 1); (128, 2); (133, 1); (131, 1); (133, 1); (131, 1); (129, 1); (133, 1); (131, 1); (133, 1); (131, 3); (133, 1); (131, 1); (133, 1); (131, 1); (133, 1);
(131, 1); (133, 1); (131, 1); (133, 1); (131, 1); (133, 1); (131, 1); (133, 1); (131, 1); (133, 1); (131, 1); (133, 1); (131, 1); (133, 1); (131, 1); (133, 5);
(131, 1); (133, 5); (131, 1); (133, 1); (131, 1); (133, 1); (131, 1); (0, 61); (129, 1); (131, 3); (129, 7); (128, 1); (129, 3); (128, 1); (129, 4); (128, 1);
(129, 23); (128, 9); (0, 4); (160, 6); (128, 4); (0, 6); (129, 52); (128, 4); (0, 8); (128, 2); (129, 50); (128, 18); (0, 8); (128, 2); (184, 10); (0, 6);
(128, 18); (129, 6); (128, 3); (129, 1); (128, 1); (129, 2); (128, 1); (184, 10); (129, 28); (128, 10); (129, 23); (128, 13); (0, 11); (128, 1); (129, 29); (0, 3);
(128, 4); (129, 47); (128, 27); (0, 1); (129, 1); (184, 10); (0, 4); (128, 2); (129, 5); (128, 1); (129, 10); (184, 10); (129, 5); (0, 1); (129, 41); (128, 14);
(0, 9); (129, 3); (128, 1); (129, 8); (128, 2); (0, 2); (184, 10); (0, 2); (128, 4); (129, 23); (128, 3); (129, 1); (128, 3); (129, 50); (128, 1); (129, 1);
(128, 3); (129, 2); (128, 2); (129, 5); (128, 2); (129, 1); (128, 1); (129, 1); (0, 24); (129, 3); (128, 2); (129, 11); (128, 7); (129, 3); (128, 2); (0, 10);
(129, 6); (0, 2); (129, 6); (0, 2); (129, 6); (0, 9); (129, 7); (0, 1); (129, 7); (0, 1); (131, 43); (128, 1); (131, 10); (0, 10); (131, 80); (129, 35);
(128, 11); (0, 2); (184, 10); (0, 6); (129, 11172); (0, 12); (129, 23); (0, 4); (129, 49); (0, 8452); (129, 107); (161, 1); (129, 7); (161, 1); (129, 4); (161, 1);
(129, 57); (161, 1); (129, 30); (161, 1); (129, 1); (161, 1); (129, 41); (161, 1); (129, 112); (0, 2); (129, 106); (0, 38); (131, 7); (0, 12); (131, 5); (0, 5);
(129, 1); (128, 1); (129, 10); (128, 1); (129, 13); (0, 1); (129, 5); (0, 1); (129, 1); (0, 1); (129, 2); (0, 1); (129, 2); (0, 1); (129, 108); (128, 16);
(0, 17); (129, 363); (128, 2); (0, 16); (129, 64); (0, 2); (129, 54); (0, 40); (129, 12); (128, 2); (0, 2); (128, 26); (0, 6); (128, 51); (0, 1); (128, 19);
(0, 1); (128, 4); (0, 4); (129, 5); (0, 1); (129, 135); (0, 4); (128, 15); (184, 10); (128, 7); (133, 26); (128, 6); (131, 26); (128, 11); (129, 89); (0, 3);
(129, 6); (0, 2); (129, 6); (0, 2); (129, 6); (0, 2); (129, 3); (0, 3); (128, 7); (0, 1); (128, 7); (0, 13); (128, 2); (0, 2); (129, 12); (0, 1);
(129, 26); (0, 1); (129, 19); (0, 1); (129, 2); (0, 1); (129, 15); (0, 2); (129, 14); (0, 34); (129, 123); (0, 5); (128, 3); (0, 4); (160, 45); (0, 3);
(128, 9); (160, 57); (128, 17); (160, 2); (128, 3); (0, 1); (128, 12); (0, 4); (128, 1); (0, 47); (128, 46); (0, 130); (129, 29); (0, 3); (129, 49); (0, 15);
(128, 1); (160, 27); (0, 4); (129, 32); (160, 4); (0, 9); (129, 20); (160, 1); (129, 8); (160, 1); (0, 5); (129, 38); (128, 5); (0, 5); (129, 30); (0, 1);
(128, 1); (129, 36); (0, 4); (129, 8); (128, 1); (160, 5); (0, 42); (133, 40); (131, 40); (129, 78); (0, 2); (184, 10); (0, 6); (133, 36); (0, 4); (131, 36);
(0, 4); (129, 40); (0, 8); (129, 52); (0, 11); (128, 1); (0, 144); (129, 311); (0, 9); (129, 22); (0, 10); (129, 8); (0, 152); (129, 6); (0, 2); (129, 1);
(0, 1); (129, 44); (0, 1); (129, 2); (0, 3); (129, 1); (0, 2); (129, 23); (0, 1); (128, 1); (160, 8); (129, 23); (128, 2); (160, 7); (129, 31); (0, 8);
(160, 9); (0, 48); (129, 19); (0, 1); (129, 2); (0, 5); (160, 5); (129, 22); (160, 6); (0, 3); (128, 1); (129, 26); (0, 5); (128, 1); (0, 64); (129, 56);
(0, 4); (160, 2); (129, 2); (160, 16); (0, 2); (160, 46); (129, 1); (128, 3); (0, 1); (128, 2); (0, 5); (128, 4); (129, 4); (0, 1); (129, 3); (0, 1);
(129, 29); (0, 2); (128, 3); (0, 4); (128, 1); (176, 4); (160, 5); (0, 7); (128, 9); (0, 7); (129, 29); (160, 2); (128, 1); (129, 29); (160, 3); (0, 32);
(129, 8); (128, 1); (129, 28); (128, 2); (0, 4); (160, 5); (128, 7); (0, 9); (129, 54); (0, 3); (128, 7); (129, 22); (0, 2); (160, 8); (129, 19); (0, 5);
(160, 8); (129, 18); (0, 7); (128, 4); (0, 12); (160, 7); (0, 80); (129, 73); (0, 55); (133, 51); (0, 13); (131, 51); (0, 7); (160, 6); (129, 36); (128, 4);
(0, 8); (184, 10); (0, 294); (176, 9); (160, 22); (0, 129); (129, 29); (160, 10); (129, 1); (0, 8); (129, 22); (128, 11); (160, 4); (128, 5); (0, 166); (128, 3);
(129, 53); (128, 22); (0, 4); (176, 9); (160, 11); (184, 10); (0, 15); (128, 4); (129, 45); (128, 13); (0, 1); (128, 4); (0, 14); (129, 25); (0, 7); (184, 10);
(0, 6); (128, 3); (129, 36); (128, 14); (0, 1); (184, 10); (128, 4); (129, 1); (128, 2); (0, 9); (129, 35); (128, 3); (129, 1); (0, 9); (128, 3); (129, 48);
(128, 14); (129, 4); (128, 9); (0, 2); (184, 10); (129, 1); (128, 1); (129, 1); (128, 3); (0, 1); (160, 20); (0, 11); (129, 18); (0, 1); (129, 25); (128, 19);
(0, 65); (129, 7); (0, 1); (129, 1); (0, 1); (129, 4); (0, 1); (129, 15); (0, 1); (129, 10); (128, 1); (0, 6); (129, 47); (128, 12); (0, 5); (184, 10);
(0, 6); (128, 4); (0, 1); (129, 8); (0, 2); (129, 2); (0, 2); (129, 22); (0, 1); (129, 7); (0, 1); (129, 2); (0, 1); (129, 5); (0, 1); (128, 2);
(129, 1); (128, 7); (0, 2); (128, 2); (0, 2); (128, 3); (0, 2); (129, 1); (0, 6); (128, 1); (0, 5); (129, 5); (128, 2); (0, 2); (128, 7); (0, 3);
(128, 5); (0, 139); (129, 53); (128, 18); (129, 4); (128, 5); (184, 10); (0, 1); (128, 1); (0, 1); (128, 2); (0, 33); (129, 48); (128, 20); (129, 2); (128, 1);
(129, 1); (0, 8); (184, 10); (0, 166); (129, 47); (128, 7); (0, 2); (128, 32); (129, 4); (128, 2); (0, 34); (129, 48); (128, 20); (129, 1); (0, 11); (184, 10);
(0, 6); (128, 13); (0, 19); (129, 43); (128, 13); (0, 8); (184, 10); (0, 54); (129, 27); (0, 2); (128, 15); (0, 4); (184, 10); (160, 2); (128, 4); (0, 192);
(129, 44); (128, 16); (0, 100); (133, 32); (131, 32); (184, 10); (160, 9); (0, 12); (129, 1); (0, 256); (129, 1); (128, 10); (129, 40); (128, 7); (129, 1); (128, 13);
(0, 8); (129, 1); (128, 11); (129, 40); (0, 2); (129, 4); (128, 19); (129, 1); (128, 5); (0, 29); (129, 57); (0, 263); (129, 9); (0, 1); (129, 37); (128, 8);
(0, 1); (128, 8); (129, 1); (128, 5); (0, 10); (184, 10); (160, 19); (0, 3); (128, 2); (129, 30); (0, 2); (128, 22); (0, 1); (128, 14); (0, 73); (129, 7);
(0, 1); (129, 2); (0, 1); (129, 38); (128, 6); (0, 3); (128, 1); (0, 1); (128, 2); (0, 1); (128, 7); (129, 1); (128, 1); (0, 8); (184, 10); (0, 6);
(129, 6); (0, 1); (129, 2); (0, 1); (129, 32); (128, 5); (0, 1); (128, 2); (0, 1); (128, 5); (129, 1); (0, 7); (184, 10); (0, 310); (129, 19); (128, 6);
(0, 263); (129, 922); (0, 102); (160, 111); (0, 1); (128, 5); (0, 11); (129, 196); (0, 2748); (129, 1071); (0, 4049); (129, 583); (0, 8633); (129, 569); (0, 7); (129, 31);
(0, 1); (184, 10); (0, 4); (128, 2); (0, 96); (129, 30); (0, 2); (128, 6); (0, 10); (129, 48); (128, 16); (129, 4); (128, 2); (0, 10); (184, 10); (0, 1);
(160, 7); (0, 1); (129, 21); (0, 5); (129, 19); (0, 688); (133, 32); (131, 32); (160, 23); (128, 4); (0, 101); (129, 69); (0, 11); (129, 1); (128, 46); (0, 16);
(128, 4); (129, 13); (0, 64); (129, 2); (0, 30); (129, 6130); (0, 14); (129, 755); (0, 9485); (129, 287); (0, 81); (129, 396); (0, 2308); (129, 107); (0, 5); (129, 13);
(0, 3); (129, 9); (0, 7); (129, 10); (0, 2); (128, 4); (0, 4960); (128, 246); (0, 10); (128, 39); (0, 2); (128, 74); (0, 8); (128, 110); (0, 23); (128, 70);
(0, 154); (160, 20); (0, 12); (128, 87); (0, 9); (160, 25); (0, 135); (133, 26); (131, 26); (133, 26); (131, 7); (0, 1); (131, 18); (133, 26); (131, 26); (133, 1);
(0, 1); (133, 2); (0, 2); (133, 1); (0, 2); (133, 2); (0, 2); (133, 4); (0, 1); (133, 8); (131, 4); (0, 1); (131, 1); (0, 1); (131, 7); (0, 1);
(131, 11); (133, 26); (131, 26); (133, 2); (0, 1); (133, 4); (0, 2); (133, 8); (0, 1); (133, 7); (0, 1); (131, 26); (133, 2); (0, 1); (133, 4); (0, 1);
(133, 5); (0, 1); (133, 1); (0, 3); (133, 7); (0, 1); (131, 26); (133, 26); (131, 26); (133, 26); (131, 26); (133, 26); (131, 26); (133, 26); (131, 26); (133, 26);
(131, 26); (133, 26); (131, 28); (0, 2); (133, 25); (128, 1); (131, 25); (128, 1); (131, 6); (133, 25); (128, 1); (131, 25); (128, 1); (131, 6); (133, 25); (128, 1);
(131, 25); (128, 1); (131, 6); (133, 25); (128, 1); (131, 25); (128, 1); (131, 6); (133, 25); (128, 1); (131, 25); (128, 1); (131, 6); (133, 1); (131, 1); (0, 2);
(184, 50); (128, 652); (0, 15); (128, 5); (0, 1); (128, 15); (0, 1360); (128, 7); (0, 1); (128, 17); (0, 2); (128, 7); (0, 1); (128, 2); (0, 1); (128, 5);
(0, 2005); (129, 197); (0, 2); (160, 9); (128, 7); (0, 41); (133, 34); (131, 34); (128, 7); (0, 5); (184, 10); (0, 4); (128, 2); (0, 785); (160, 59); (128, 1);
(160, 3); (128, 1); (160, 4); (0, 331); (129, 4); (0, 1); (129, 27); (0, 1); (129, 2); (0, 1); (129, 1); (0, 2); (129, 1); (0, 1); (129, 10); (0, 1);
(129, 4); (0, 1); (129, 1); (0, 1); (129, 1); (0, 6); (129, 1); (0, 4); (129, 1); (0, 1); (129, 1); (0, 1); (129, 1); (0, 1); (129, 3); (0, 1);
(129, 2); (0, 1); (129, 1); (0, 2); (129, 1); (0, 1); (129, 1); (0, 1); (129, 1); (0, 1); (129, 1); (0, 1); (129, 1); (0, 1); (129, 2); (0, 1);
(129, 1); (0, 2); (129, 4); (0, 1); (129, 7); (0, 1); (129, 4); (0, 1); (129, 4); (0, 1); (129, 1); (0, 1); (129, 10); (0, 1); (129, 17); (0, 5);
(129, 3); (0, 1); (129, 5); (0, 1); (129, 17); (0, 52); (128, 2); (0, 270); (128, 44); (0, 4); (128, 100); (0, 12); (128, 15); (0, 2); (128, 15); (0, 1);
(128, 15); (0, 1); (128, 37); (0, 10); (176, 11); (160, 2); (0, 3); (128, 32); (132, 26); (128, 6); (132, 26); (128, 2); (0, 4); (132, 26); (128, 35); (0, 57);
(128, 29); (0, 13); (128, 44); (0, 4); (128, 9); (0, 7); (128, 2); (0, 14); (128, 6); (0, 154); (128, 981); (0, 11); (128, 13); (0, 3); (128, 10); (0, 6);
(128, 116); (0, 12); (128, 89); (0, 39); (128, 12); (0, 4); (128, 56); (0, 8); (128, 10); (0, 6); (128, 40); (0, 8); (128, 30); (0, 82); (128, 12); (0, 4);
(128, 47); (0, 1); (128, 49); (0, 2); (128, 4); (0, 3); (128, 1); (0, 1); (128, 39); (0, 13); (128, 10); (0, 6); (128, 3); (0, 13); (128, 48); (0, 96);
(128, 14); (0, 1426); (129, 1); (161, 1); (129, 98); (161, 1); (129, 125); (161, 1); (129, 62); (161, 1); (129, 2056); (161, 1); (129, 88); (161, 1); (129, 8); (161, 1);
(129, 15); (161, 1); (129, 333); (161, 1); (129, 18); (161, 1); (129, 27); (161, 1); (129, 6262); (161, 1); (129, 1543); (161, 1); (129, 4482); (161, 1); (129, 10065); (161, 1);
(129, 17513); (0, 41); (129, 4149); (0, 11); (129, 222); (0, 2); (129, 5762); (0, 14); (129, 7473); (0, 3103); (129, 144); (161, 1); (129, 397); (0, 65535); (0, 65535); (0, 65535);
(0, 65535); (0, 65535); (0, 65535); (0, 65535); (0, 65535); (0, 65535); (0, 65535); (0, 65535); (0, 1773); (128, 240); (0, 65535); (0, 65535); (0, 65042)].
