(** C59: the methods of compiled bytes and str values that rewrite a text give Python's answers. *)
From Coq Require Import List ZArith Bool Lia.
From Verif Require Import Base Text_Model TextSearch_Model TextSearch_Spec TextSearch_Proofs
  TextSplit_Model TextSplit_Spec TextEdit_Model TextEdit_Spec TextEdit_Proofs.
Import ListNotations.
Open Scope Z_scope.

(** b"abab", b"ab", b"xy" and b" ab\t" *)
Definition ex_abab : bytes := Some [97; 98; 97; 98].
Definition ex_ab : bytes := Some [97; 98].
Definition ex_xy : bytes := Some [120; 121].
Definition ex_blanks : list Z := [32; 97; 98; 9].
Definition one_byte (d : list Z) : str := Some (mk_slayout 1 d).

(** ** replace *)

(** [x.replace(old, new, max)], for the Python the compiler runs under *)
Theorem C59_bytes_replace : forall old_python x old new max,
  exists y, bytes_replace old_python x old new max = Ok y /\
    replaces old_python (bdata x) (bdata old) (bdata new) max (bdata y).
Proof. exact (replace_ok bytes_ops bdata bytes_ops_ok). Qed.

Theorem C59_str_replace : forall old_python x old new max,
  exists y, str_replace old_python x old new max = Ok y /\
    replaces old_python (sdata x) (sdata old) (sdata new) max (sdata y).
Proof. exact (replace_ok str_ops sdata str_ops_ok). Qed.

Example ex_replace :
  bytes_replace false ex_abab ex_ab ex_xy 1 = Ok (Some [120; 121; 97; 98]) /\
  bytes_replace false ex_ab None ex_xy 2 = Ok (Some [120; 121; 97; 120; 121; 98]) /\
  bytes_replace false None None ex_xy 1 = Ok ex_xy /\ bytes_replace true None None ex_xy 1 = Ok None /\
  str_replace false (one_byte [97; 98]) (one_byte [98]) (Some (mk_slayout 2 [955])) (-1)
    = Ok (Some (mk_slayout 2 [97; 955])).
Proof. repeat split; vm_compute; reflexivity. Qed.

(** ** strip *)

(** [x.strip(values)], [x.lstrip(values)] and [x.rstrip(values)]; without [values], of
    whitespace *)
Theorem C59_bytes_strip : forall x values at_left at_right,
  exists y, bytes_strip x values at_left at_right = Ok y /\
    stripped (match values with None => is_space | Some v => among (bdata v) end)
      at_left at_right (bdata x) (bdata y).
Proof. exact bytes_strip_ok. Qed.

Theorem C59_str_strip : forall space x values at_left at_right,
  exists y, str_strip space x values at_left at_right = Ok y /\
    stripped (match values with None => space | Some v => among (sdata v) end)
      at_left at_right (sdata x) (sdata y).
Proof. exact str_strip_ok. Qed.

Example ex_strip :
  bytes_strip (Some ex_blanks) None true true = Ok (Some [97; 98]) /\
  bytes_strip (Some ex_blanks) None false true = Ok (Some [32; 97; 98]) /\
  bytes_strip (Some ex_blanks) (Some (Some [32; 97])) true true = Ok (Some [98; 9]) /\
  str_strip is_space (one_byte ex_blanks) None true false = Ok (one_byte [97; 98; 9]).
Proof. repeat split; vm_compute; reflexivity. Qed.

(** The relations that specify [replace] and [strip] determine the answer. *)
Theorem C59_answers_are_determined :
  (forall old new k x y y', replaced old new k x y -> replaced old new k x y' -> y = y') /\
  (forall p at_left at_right x y y',
     stripped p at_left at_right x y -> stripped p at_left at_right x y' -> y = y').
Proof.
  split.
  - intros old new k x y y' H H'. exact (replaced_unique old new k x y H y' H').
  - exact stripped_unique.
Qed.

(** ** center, ljust, rjust *)

(** The fill of a call: one element, a blank if it is omitted *)
Definition fill_is {T} (data : T -> list Z) (fill : option T) (c : Z) : Prop :=
  match fill with None => c = 32 | Some f => data f = [c] end.

Lemma justify_with : forall {T} (o : text_ops T) data (O : ops_ok o data) f x width fill c,
  fill_is data fill c ->
  exists v, data v = [c] /\ justify_call o f x width fill = Ok (f x width v).
Proof.
  intros T o data O f x width [v|] c H; cbn in *.
  - exists v. split; [exact H|]. now rewrite (ok_len o data O), H.
  - subst c. exists (t_lit o [32]). split; [apply (ok_lit o data O)|reflexivity].
Qed.

(** [x.ljust(width, c)] and [x.rjust(width, c)] *)
Theorem C59_bytes_just : forall x width fill c, fill_is bdata fill c ->
  (exists y, bytes_ljust x width fill = Ok y /\ bdata y = ljusted (bdata x) width c) /\
  (exists y, bytes_rjust x width fill = Ok y /\ bdata y = rjusted (bdata x) width c).
Proof.
  intros x width fill c H. unfold bytes_ljust, bytes_rjust. split.
  - destruct (justify_with bytes_ops bdata bytes_ops_ok (ljust_text bytes_ops) x width fill c H)
      as (v & V & ->).
    eexists. split; [reflexivity|]. exact (ljust_ok bytes_ops bdata bytes_ops_ok x width v c V).
  - destruct (justify_with bytes_ops bdata bytes_ops_ok (rjust_text bytes_ops) x width fill c H)
      as (v & V & ->).
    eexists. split; [reflexivity|]. exact (rjust_ok bytes_ops bdata bytes_ops_ok x width v c V).
Qed.

Theorem C59_str_just : forall x width fill c, fill_is sdata fill c ->
  (exists y, str_ljust x width fill = Ok y /\ sdata y = ljusted (sdata x) width c) /\
  (exists y, str_rjust x width fill = Ok y /\ sdata y = rjusted (sdata x) width c).
Proof.
  intros x width fill c H. unfold str_ljust, str_rjust. split.
  - destruct (justify_with str_ops sdata str_ops_ok (ljust_text str_ops) x width fill c H)
      as (v & V & ->).
    eexists. split; [reflexivity|]. exact (ljust_ok str_ops sdata str_ops_ok x width v c V).
  - destruct (justify_with str_ops sdata str_ops_ok (rjust_text str_ops) x width fill c H)
      as (v & V & ->).
    eexists. split; [reflexivity|]. exact (rjust_ok str_ops sdata str_ops_ok x width v c V).
Qed.

(** [x.center(width, c)].  Missing for the full claim: a width and a padding that are odd. *)
Theorem C59_bytes_center_partial : forall x width fill c, fill_is bdata fill c ->
  width <= size (bdata x) \/ Z.even (width - size (bdata x)) = true \/ Z.even width = true ->
  exists y, bytes_center x width fill = Ok y /\ bdata y = centered (bdata x) width c.
Proof.
  intros x width fill c H E. unfold bytes_center.
  destruct (justify_with bytes_ops bdata bytes_ops_ok (center_text bytes_ops) x width fill c H)
    as (v & V & ->).
  eexists. split; [reflexivity|]. exact (center_ok bytes_ops bdata bytes_ops_ok x width v c V E).
Qed.

Theorem C59_str_center_partial : forall x width fill c, fill_is sdata fill c ->
  width <= size (sdata x) \/ Z.even (width - size (sdata x)) = true \/ Z.even width = true ->
  exists y, str_center x width fill = Ok y /\ sdata y = centered (sdata x) width c.
Proof.
  intros x width fill c H E. unfold str_center.
  destruct (justify_with str_ops sdata str_ops_ok (center_text str_ops) x width fill c H)
    as (v & V & ->).
  eexists. split; [reflexivity|]. exact (center_ok str_ops sdata str_ops_ok x width v c V E).
Qed.

(** [b"ab".center(5)] is [b" ab  "] instead of [b"  ab "]; so is the answer for str. *)
Theorem C59_center_of_odd_width_refuted :
  (exists y, bytes_center ex_ab 5 None = Ok y /\ bdata y <> centered (bdata ex_ab) 5 32) /\
  (exists y, str_center (one_byte [97; 98]) 5 None = Ok y /\ sdata y <> centered [97; 98] 5 32).
Proof.
  split; eexists; (split; [vm_compute; reflexivity|]); vm_compute; discriminate.
Qed.

(** Whatever the width, the text stands in the middle, at most one element off. *)
Theorem C59_center_is_balanced : forall x width fill c, fill_is bdata fill c ->
  size (bdata x) < width ->
  exists y a b, bytes_center x width fill = Ok y /\ bdata y = times c a ++ bdata x ++ times c b /\
    0 <= a /\ a <= b <= a + 1 /\ a + b + size (bdata x) = width.
Proof.
  intros x width fill c H E. unfold bytes_center.
  destruct (justify_with bytes_ops bdata bytes_ops_ok (center_text bytes_ops) x width fill c H)
    as (v & V & ->).
  destruct (center_odd bytes_ops bdata bytes_ops_ok x width v c V E) as (a & b & K).
  exists (center_text bytes_ops x width v), a, b. split; [reflexivity|exact K].
Qed.

Theorem C59_str_center_is_balanced : forall x width fill c, fill_is sdata fill c ->
  size (sdata x) < width ->
  exists y a b, str_center x width fill = Ok y /\ sdata y = times c a ++ sdata x ++ times c b /\
    0 <= a /\ a <= b <= a + 1 /\ a + b + size (sdata x) = width.
Proof.
  intros x width fill c H E. unfold str_center.
  destruct (justify_with str_ops sdata str_ops_ok (center_text str_ops) x width fill c H)
    as (v & V & ->).
  destruct (center_odd str_ops sdata str_ops_ok x width v c V E) as (a & b & K).
  exists (center_text str_ops x width v), a, b. split; [reflexivity|exact K].
Qed.

(** A fill that is not one element long is a TypeError. *)
Theorem C59_fill_is_one_element : forall width,
  (forall x fill, size (bdata fill) <> 1 ->
     bytes_center x width (Some fill) = Err TypeError /\
     bytes_ljust x width (Some fill) = Err TypeError /\
     bytes_rjust x width (Some fill) = Err TypeError) /\
  (forall x fill, size (sdata fill) <> 1 ->
     str_center x width (Some fill) = Err TypeError /\
     str_ljust x width (Some fill) = Err TypeError /\
     str_rjust x width (Some fill) = Err TypeError).
Proof.
  intros width. split; intros x fill H; unfold size in H;
    unfold bytes_center, bytes_ljust, bytes_rjust, str_center, str_ljust, str_rjust, justify_call;
    cbn [t_len bytes_ops str_ops]; unfold blen, slen, zlen;
    (match goal with |- context [?v =? 1] => destruct (Z.eqb_spec v 1) as [E|E] end;
     [contradiction|auto]).
Qed.

Example ex_just :
  fill_is bdata None 32 /\ fill_is bdata (Some (Some [42])) 42 /\
  bytes_ljust ex_ab 4 None = Ok (Some [97; 98; 32; 32]) /\
  bytes_rjust ex_ab 4 (Some (Some [42])) = Ok (Some [42; 42; 97; 98]) /\
  bytes_center ex_ab 6 (Some (Some [42])) = Ok (Some [42; 42; 97; 98; 42; 42]) /\
  bytes_center ex_ab 4 (Some ex_xy) = Err TypeError.
Proof. repeat split; vm_compute; reflexivity. Qed.

(** ** expandtabs and zfill *)

Theorem C59_expandtabs : forall tabsize,
  (forall x, exists y, bytes_expandtabs x tabsize = Ok y /\ bdata y = expanded tabsize 0 (bdata x)) /\
  (forall x, exists y, str_expandtabs x tabsize = Ok y /\ sdata y = expanded tabsize 0 (sdata x)).
Proof.
  intro t. split; intro x;
    [exact (expandtabs_ok bytes_ops bdata bytes_ops_ok x t)
    |exact (expandtabs_ok str_ops sdata str_ops_ok x t)].
Qed.

(** Missing for the full claim: a width so low that the difference to the length leaves the
    64-bit integers. *)
Theorem C59_zfill_partial : forall width,
  (forall x, - 2 ^ 63 <= width - size (bdata x) < 2 ^ 63 ->
     exists y, bytes_zfill x width = Ok y /\ bdata y = zfilled (bdata x) width) /\
  (forall x, - 2 ^ 63 <= width - size (sdata x) < 2 ^ 63 ->
     exists y, str_zfill x width = Ok y /\ sdata y = zfilled (sdata x) width).
Proof.
  intro width. split; intros x H;
    [exact (zfill_ok bytes_ops bdata bytes_ops_ok x width H)
    |exact (zfill_ok str_ops sdata str_ops_ok x width H)].
Qed.

(** [b"a".zfill(-2**63)] asks for 2^63 - 1 zeros instead of answering [b"a"]. *)
Theorem C59_zfill_of_lowest_width_refuted :
  exists x y width, - 2 ^ 63 <= width < 2 ^ 63 /\ bytes_zfill x width = Ok y /\
    bdata y <> zfilled (bdata x) width.
Proof.
  destruct (zfill_any bytes_ops bdata bytes_ops_ok (Some [97]) (- 2 ^ 63)) as (y & Y1 & Y2).
  exists (Some [97]), y, (- 2 ^ 63). split; [lia|]. split; [exact Y1|]. rewrite Y2. intro H.
  apply (f_equal (fun d : list Z => Z.of_nat (length d))) in H. revert H.
  set (w := wrap_s 64 _). assert (W : w = 2 ^ 63 - 1) by (vm_compute; reflexivity). clearbody w.
  unfold zfilled, times, size. cbn [bdata length orb]. change (97 =? 43) with false.
  change (97 =? 45) with false. cbn [orb]. cbv iota. rewrite !app_length, !repeat_length.
  cbn [length]. lia.
Qed.

Example ex_zfill :
  bytes_expandtabs (Some [97; 9; 98; 10; 9; 99]) 4 = Ok (Some [97; 32; 32; 32; 98; 10; 32; 32; 32; 32; 99]) /\
  bytes_zfill (Some [45; 49]) 4 = Ok (Some [45; 48; 48; 49]) /\
  str_zfill (one_byte [49]) 3 = Ok (one_byte [48; 48; 49]) /\
  - 2 ^ 63 <= 4 - size (bdata (Some [45; 49])) < 2 ^ 63.
Proof. repeat split; vm_compute; congruence. Qed.

Print Assumptions C59_bytes_replace.
Print Assumptions C59_str_replace.
Print Assumptions C59_bytes_strip.
Print Assumptions C59_str_strip.
Print Assumptions C59_answers_are_determined.
Print Assumptions C59_bytes_just.
Print Assumptions C59_str_just.
Print Assumptions C59_bytes_center_partial.
Print Assumptions C59_str_center_partial.
Print Assumptions C59_center_of_odd_width_refuted.
Print Assumptions C59_center_is_balanced.
Print Assumptions C59_str_center_is_balanced.
Print Assumptions C59_fill_is_one_element.
Print Assumptions C59_expandtabs.
Print Assumptions C59_zfill_partial.
Print Assumptions C59_zfill_of_lowest_width_refuted.
