(** C57: searching in the bytes and str values of compiled code gives Python's answers. *)
From Coq Require Import List ZArith Bool Lia.
From Verif Require Import Base Text_Model TextSearch_Model TextSearch_Spec TextSearch_Proofs.
Import ListNotations.
Open Scope Z_scope.

(** The texts of the examples: b"abcabcab" and b"abc", and the same as str, the second with
    cells of two bytes. *)
Definition ex_bytes : bytes := Some [97; 98; 99; 97; 98; 99; 97; 98].
Definition ex_sub : bytes := Some [97; 98; 99].
Definition ex_str : str := Some (mk_slayout 1 [97; 98; 99; 97; 98; 99; 97; 98]).
Definition ex_ssub : str := Some (mk_slayout 2 [97; 98; 99]).

(** [x.find(sub, start, stop)] is the lowest position of [sub] within the bounds, or -1. *)
Theorem C57_bytes_find : forall x sub start stop,
  exists r, with_bounds (blen x) (bytes_find x sub) start stop = Ok r /\
            finds_first (bdata x) (bdata sub) start stop r.
Proof. exact bytes_find_ok. Qed.

Example ex_find :
  with_bounds (blen ex_bytes) (bytes_find ex_bytes ex_sub) (Some 1) (Some (-1)) = Ok 3 /\
  with_bounds (blen ex_bytes) (bytes_find ex_bytes ex_sub) (Some 4) None = Ok (-1).
Proof. split; vm_compute; reflexivity. Qed.

Theorem C57_bytes_rfind : forall x sub start stop,
  exists r, with_bounds (blen x) (bytes_rfind x sub) start stop = Ok r /\
            finds_last (bdata x) (bdata sub) start stop r.
Proof. exact bytes_rfind_ok. Qed.

Example ex_rfind :
  with_bounds (blen ex_bytes) (bytes_rfind ex_bytes ex_sub) None (Some 5) = Ok 0.
Proof. vm_compute; reflexivity. Qed.

(** [x.index] and [x.rindex] raise ValueError where [find] and [rfind] answer -1. *)
Theorem C57_bytes_index : forall x sub start stop,
  or_not_found (finds_first (bdata x) (bdata sub) start stop)
    (with_bounds (blen x) (bytes_index x sub) start stop) /\
  or_not_found (finds_last (bdata x) (bdata sub) start stop)
    (with_bounds (blen x) (bytes_rindex x sub) start stop).
Proof.
  intros x sub start stop.
  destruct (bytes_find_ok x sub start stop) as (r & H1 & H2).
  destruct (bytes_rfind_ok x sub start stop) as (q & H3 & H4).
  split; [exact (or_value_error_ok _ _ r H1 H2)|exact (or_value_error_ok _ _ q H3 H4)].
Qed.

Example ex_index :
  with_bounds (blen ex_bytes) (bytes_index ex_bytes ex_sub) (Some 4) None = Err ValueError /\
  with_bounds (blen ex_bytes) (bytes_rindex ex_bytes ex_sub) None None = Ok 3.
Proof. split; vm_compute; reflexivity. Qed.

(** Looking for an integer is looking for that byte, and ValueError if it is not one. *)
Theorem C57_bytes_single : forall x b start stop,
  (0 <= b <= 255 ->
   (exists r, with_bounds (blen x) (bytes_find_single x b) start stop = Ok r /\
              finds_first (bdata x) [b] start stop r) /\
   (exists r, with_bounds (blen x) (bytes_rfind_single x b) start stop = Ok r /\
              finds_last (bdata x) [b] start stop r) /\
   or_not_found (finds_first (bdata x) [b] start stop)
     (with_bounds (blen x) (bytes_index_single x b) start stop) /\
   or_not_found (finds_last (bdata x) [b] start stop)
     (with_bounds (blen x) (bytes_rindex_single x b) start stop) /\
   (exists n, with_bounds (blen x) (bytes_count_single x b) start stop = Ok n /\
              counts (bdata x) [b] stop (lower_bound (blen x) start) n)) /\
  (~ 0 <= b <= 255 ->
   with_bounds (blen x) (bytes_find_single x b) start stop = Err ValueError /\
   with_bounds (blen x) (bytes_rfind_single x b) start stop = Err ValueError /\
   with_bounds (blen x) (bytes_index_single x b) start stop = Err ValueError /\
   with_bounds (blen x) (bytes_rindex_single x b) start stop = Err ValueError /\
   with_bounds (blen x) (bytes_count_single x b) start stop = Err ValueError).
Proof.
  intros x b start stop. split.
  - intro Hb.
    destruct (bytes_find_single_ok x b start stop Hb) as (r & H1 & H2).
    destruct (bytes_rfind_single_ok x b start stop Hb) as (q & H3 & H4).
    repeat split.
    + now exists r.
    + now exists q.
    + exact (or_value_error_ok _ _ r H1 H2).
    + exact (or_value_error_ok _ _ q H3 H4).
    + exact (bytes_count_single_ok x b start stop Hb).
  - intro Hb. assert (E : (b <? 0) || (255 <? b) = true) by lia.
    unfold with_bounds, bytes_index_single, bytes_rindex_single, bytes_find_single,
      bytes_rfind_single, bytes_count_single. rewrite !E. repeat split.
Qed.

Example ex_single :
  with_bounds (blen ex_bytes) (bytes_rfind_single ex_bytes 99) None None = Ok 5 /\
  with_bounds (blen ex_bytes) (bytes_count_single ex_bytes 97) (Some (-3)) None = Ok 1.
Proof. split; vm_compute; reflexivity. Qed.

Theorem C57_bytes_count : forall x sub start stop,
  exists n, with_bounds (blen x) (bytes_count x sub) start stop = Ok n /\
            counts (bdata x) (bdata sub) stop (lower_bound (blen x) start) n.
Proof. exact bytes_count_ok. Qed.

Example ex_count :
  with_bounds (blen ex_bytes) (bytes_count ex_bytes ex_sub) None None = Ok 2 /\
  with_bounds 4 (bytes_count (Some [7; 7; 7; 7]) (Some [7; 7])) None None = Ok 2 /\
  with_bounds 4 (bytes_count (Some [7; 7; 7; 7]) None) None None = Ok 5.
Proof. repeat split; vm_compute; reflexivity. Qed.

(** [x.startswith], [x.endswith] and [in]; an end cannot be given without a start. *)
Theorem C57_bytes_prefix_suffix : forall x p start stop,
  (start = None -> stop = None) ->
  (exists b, bytes_startswith_call x p start stop = Ok b /\
             (b = true <-> starts_with (bdata x) (bdata p) start stop)) /\
  (exists b, bytes_endswith_call x p start stop = Ok b /\
             (b = true <-> ends_with (bdata x) (bdata p) start stop)).
Proof.
  intros x p start stop H.
  split; [exact (bytes_startswith_ok x p start stop H)|exact (bytes_endswith_ok x p start stop H)].
Qed.

Example ex_prefix :
  bytes_startswith_call ex_bytes ex_sub (Some 3) None = Ok true /\
  bytes_endswith_call ex_bytes ex_sub (Some 1) (Some 6) = Ok true /\
  bytes_endswith_call ex_bytes ex_sub None None = Ok false.
Proof. repeat split; vm_compute; reflexivity. Qed.

Theorem C57_bytes_contains : forall x sub,
  exists b, bytes_contains x sub = Ok b /\ (b = true <-> contains (bdata x) (bdata sub)).
Proof. exact bytes_contains_ok. Qed.

Example ex_contains : bytes_contains ex_bytes (Some [99; 97]) = Ok true.
Proof. vm_compute; reflexivity. Qed.

(** The same for str, whatever the widths of the cells of the two texts *)
Theorem C57_str_find : forall l sub start stop,
  (exists r, with_bounds (slen l) (str_find l sub) start stop = Ok r /\
             finds_first (sdata l) (sdata sub) start stop r) /\
  (exists r, with_bounds (slen l) (str_rfind l sub) start stop = Ok r /\
             finds_last (sdata l) (sdata sub) start stop r).
Proof.
  intros l sub start stop.
  split; [exact (str_find_ok l sub start stop)|exact (str_rfind_ok l sub start stop)].
Qed.

Example ex_str_find :
  with_bounds (slen ex_str) (str_find ex_str ex_ssub) (Some 1) None = Ok 3 /\
  with_bounds (slen ex_str) (str_rfind ex_str ex_ssub) None (Some (-3)) = Ok 0.
Proof. split; vm_compute; reflexivity. Qed.

Theorem C57_str_index : forall l sub start stop,
  or_not_found (finds_first (sdata l) (sdata sub) start stop)
    (with_bounds (slen l) (str_index l sub) start stop) /\
  or_not_found (finds_last (sdata l) (sdata sub) start stop)
    (with_bounds (slen l) (str_rindex l sub) start stop).
Proof.
  intros l sub start stop.
  destruct (str_find_ok l sub start stop) as (r & H1 & H2).
  destruct (str_rfind_ok l sub start stop) as (q & H3 & H4).
  split; [exact (or_value_error_ok _ _ r H1 H2)|exact (or_value_error_ok _ _ q H3 H4)].
Qed.

Example ex_str_index :
  with_bounds (slen ex_str) (str_index ex_str ex_ssub) (Some 4) None = Err ValueError.
Proof. vm_compute; reflexivity. Qed.

(** [count] of str, except for the empty text in the empty text *)
Theorem C57_str_count_partial : forall l sub start stop,
  sdata l <> [] \/ sdata sub <> [] ->
  exists n, with_bounds (slen l) (str_count l sub) start stop = Ok n /\
            counts (sdata l) (sdata sub) stop (lower_bound (slen l) start) n.
Proof. exact str_count_ok. Qed.

Example ex_str_count :
  sdata ex_str <> [] /\
  with_bounds (slen ex_str) (str_count ex_str ex_ssub) None None = Ok 2.
Proof. split; [discriminate|vm_compute; reflexivity]. Qed.

(** "".count("") is 0, where Python answers 1. *)
Theorem C57_str_count_of_empty_refuted :
  ~ forall l sub start stop,
      exists n, with_bounds (slen l) (str_count l sub) start stop = Ok n /\
                counts (sdata l) (sdata sub) stop (lower_bound (slen l) start) n.
Proof.
  intro H. destruct (H None None None None) as (n & H1 & H2).
  vm_compute in H1. injection H1 as <-.
  pose proof (counts_empty_max (@nil Z) None 0 (Z.le_refl 0)) as H3.
  discriminate (counts_unique _ _ _ _ _ _ H2 H3).
Qed.

Theorem C57_str_prefix_suffix : forall s p start stop,
  (start = None -> stop = None) ->
  (str_startswith_call s p start stop = true <-> starts_with (sdata s) (sdata p) start stop) /\
  (str_endswith_call s p start stop = true <-> ends_with (sdata s) (sdata p) start stop).
Proof.
  intros s p start stop H.
  split; [exact (str_startswith_ok s p start stop H)|exact (str_endswith_ok s p start stop H)].
Qed.

Example ex_str_prefix :
  str_startswith_call ex_str ex_ssub (Some 3) (Some 6) = true /\
  str_endswith_call ex_str ex_ssub (Some 4) (Some 6) = false.
Proof. split; vm_compute; reflexivity. Qed.

Theorem C57_str_contains : forall x sub,
  exists b, str_contains x sub = Ok b /\ (b = true <-> contains (sdata x) (sdata sub)).
Proof. exact str_contains_ok. Qed.

Example ex_str_contains : str_contains ex_str (Some (mk_slayout 1 [98; 98])) = Ok false.
Proof. vm_compute; reflexivity. Qed.

(** The specification leaves no choice: it determines every answer. *)
Theorem C57_answers_are_determined : forall x sub start stop r r',
  (finds_first x sub start stop r -> finds_first x sub start stop r' -> r = r') /\
  (finds_last x sub start stop r -> finds_last x sub start stop r' -> r = r') /\
  (forall lo, counts x sub stop lo r -> counts x sub stop lo r' -> r = r').
Proof.
  intros. split; [apply finds_first_unique|]. split; [apply finds_last_unique|].
  intro lo. apply counts_unique.
Qed.

Print Assumptions C57_bytes_find.
Print Assumptions C57_bytes_rfind.
Print Assumptions C57_bytes_index.
Print Assumptions C57_bytes_single.
Print Assumptions C57_bytes_count.
Print Assumptions C57_bytes_prefix_suffix.
Print Assumptions C57_bytes_contains.
Print Assumptions C57_str_find.
Print Assumptions C57_str_index.
Print Assumptions C57_str_count_partial.
Print Assumptions C57_str_count_of_empty_refuted.
Print Assumptions C57_str_prefix_suffix.
Print Assumptions C57_str_contains.
Print Assumptions C57_answers_are_determined.
