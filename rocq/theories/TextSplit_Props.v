(** C58: splitting and joining the bytes and str values of compiled code gives Python's
    answers. *)
From Coq Require Import List ZArith Bool Lia.
From Verif Require Import Base Text_Model TextSearch_Model TextSearch_Spec TextSearch_Proofs
  TextSplit_Model TextSplit_Spec TextSplit_Proofs TextSplit_Calls_Proofs TextSplit_Lines_Proofs.
Import ListNotations.
Open Scope Z_scope.

(** The texts of the examples: b"a,,b,c", b"," and b" a  b ", and the same as str. *)
Definition ex_list : list Z := [97; 44; 44; 98; 44; 99].
Definition ex_spaced : list Z := [32; 97; 32; 32; 98; 32].
Definition ex_comma : bytes := Some [44].
Definition ex_scomma : str := Some (mk_slayout 2 [44]).
Definition ascii_text (d : list Z) : str := Some (mk_slayout 1 d).

(** ** Splitting at a separator *)

(** [x.split(sep, max)] and [x.rsplit(sep, max)] of bytes; a negative [max] is no limit.  Missing
    for the full claim: an empty [x] with [max = 0]. *)
Theorem C58_bytes_split_partial : forall x sep max,
  bdata sep <> [] -> bdata x <> [] \/ max <> 0 ->
  (exists out, bytes_split x (Some sep) max = Ok out /\
               splits (bdata sep) max (bdata x) (map bdata out)) /\
  (exists out, bytes_rsplit x (Some sep) max = Ok out /\
               rsplits (bdata sep) max (bdata x) (map bdata out)).
Proof.
  intros x sep max Hs Hx. unfold bytes_split, bytes_rsplit, split_call.
  destruct (Z.eqb_spec (blen sep) 0) as [E|E]; [destruct Hs; now apply blen_nil|].
  split; [now apply bsplit_sep|now apply brsplit_sep].
Qed.

Example ex_bytes_split :
  bytes_split (Some ex_list) (Some ex_comma) (-1)
    = Ok [Some [97]; Some []; Some [98]; Some [99]] /\
  bytes_rsplit (Some ex_list) (Some ex_comma) 1 = Ok [Some [97; 44; 44; 98]; Some [99]].
Proof. split; vm_compute; reflexivity. Qed.

(** [b"".split(b",", 0)] is [[]] instead of [[b""]]; so is [rsplit]. *)
Theorem C58_bytes_split_of_empty_refuted :
  exists x sep, bdata sep <> [] /\
    (exists out, bytes_split x (Some sep) 0 = Ok out /\
                 ~ splits (bdata sep) 0 (bdata x) (map bdata out)) /\
    (exists out, bytes_rsplit x (Some sep) 0 = Ok out /\
                 ~ rsplits (bdata sep) 0 (bdata x) (map bdata out)).
Proof.
  exists None, ex_comma. split; [discriminate|].
  split; exists []; (split; [vm_compute; reflexivity|]); intro H;
    [apply splits_joined in H|apply rsplits_joined in H]; now destruct H.
Qed.

(** [x.split(sep, max)] and [x.rsplit(sep, max)] of str *)
Theorem C58_str_split : forall space x sep max, sdata sep <> [] ->
  (exists out, str_split space x (Some sep) max = Ok out /\
               splits (sdata sep) max (sdata x) (map sdata out)) /\
  (exists out, str_rsplit space x (Some sep) max = Ok out /\
               rsplits (sdata sep) max (sdata x) (map sdata out)).
Proof.
  intros space x sep max Hs. unfold str_split, str_rsplit, ssplit_call.
  pose proof (slen_pos sep Hs). destruct (Z.eqb_spec (slen sep) 0) as [E|E]; [lia|].
  split; [now apply ssplit_sep|now apply srsplit_sep].
Qed.

Example ex_str_split :
  exists out, str_split is_space (ascii_text ex_list) (Some ex_scomma) 2 = Ok out /\
              map sdata out = [[97]; []; [98; 44; 99]].
Proof. eexists. split; vm_compute; reflexivity. Qed.

(** An empty separator is a ValueError. *)
Theorem C58_empty_separator : forall space (bx bsep : bytes) (sx ssep : str) max,
  bdata bsep = [] -> sdata ssep = [] ->
  bytes_split bx (Some bsep) max = Err ValueError /\
  bytes_rsplit bx (Some bsep) max = Err ValueError /\
  str_split space sx (Some ssep) max = Err ValueError /\
  str_rsplit space sx (Some ssep) max = Err ValueError /\
  bytes_partition bx bsep = Err ValueError /\ bytes_rpartition bx bsep = Err ValueError /\
  str_partition sx ssep = Err ValueError /\ str_rpartition sx ssep = Err ValueError.
Proof.
  intros space bx bsep sx ssep max Hb Hs.
  unfold bytes_split, bytes_rsplit, split_call, str_split, str_rsplit, ssplit_call,
    bytes_partition, bytes_rpartition, str_partition, str_rpartition, blen, slen.
  rewrite Hb, Hs. repeat split; reflexivity.
Qed.

Example ex_empty_separator : bdata (Some []) = [] /\ sdata (ascii_text []) = [].
Proof. split; reflexivity. Qed.

(** ** Splitting at whitespace *)

(** [x.split(None, max)] and [x.rsplit(None, max)] of bytes.  Without a limit, and with the limit
    0, the pieces are Python's.  With a positive limit they are once the whitespace before the
    last piece, or after the first one for [rsplit], and a piece that is nothing but whitespace
    are taken away: this is what is missing for the full claim. *)
Theorem C58_bytes_words_partial : forall x max,
  (exists out, bytes_split x None max = Ok out /\
     words is_space max (bdata x)
       (filter nonempty (map (strip_left is_space) (map bdata out))) /\
     (max <= 0 -> words is_space max (bdata x) (map bdata out))) /\
  (exists out, bytes_rsplit x None max = Ok out /\
     rwords is_space max (bdata x)
       (filter nonempty (map (strip_right is_space) (map bdata out))) /\
     (max <= 0 -> rwords is_space max (bdata x) (map bdata out))).
Proof. intros x max. split; [apply bsplit_space|apply brsplit_space]. Qed.

Example ex_bytes_words :
  bytes_split (Some ex_spaced) None (-1) = Ok [Some [97]; Some [98]] /\
  bytes_rsplit (Some ex_spaced) None 0 = Ok [Some [32; 97; 32; 32; 98]].
Proof. split; vm_compute; reflexivity. Qed.

(** [b"a  b".split(None, 1)] is [[b"a", b" b"]] instead of [[b"a", b"b"]], and
    [b"a  b".rsplit(None, 1)] is [[b"a ", b"b"]] instead of [[b"a", b"b"]]. *)
Theorem C58_bytes_words_limited_refuted :
  exists x,
    (exists out, bytes_split x None 1 = Ok out /\ ~ words is_space 1 (bdata x) (map bdata out)) /\
    (exists out, bytes_rsplit x None 1 = Ok out /\ ~ rwords is_space 1 (bdata x) (map bdata out)).
Proof.
  exists (Some [97; 32; 32; 98]).
  destruct (bsplit_space [97; 32; 32; 98] 1) as (o1 & A1 & A2 & _).
  destruct (brsplit_space [97; 32; 32; 98] 1) as (o2 & B1 & B2 & _).
  vm_compute in A1, B1. injection A1 as <-. injection B1 as <-.
  split; eexists; (split; [vm_compute; reflexivity|]); intro H.
  - apply (words_unique _ _ _ _ H) in A2. vm_compute in A2. discriminate.
  - apply (rwords_unique _ _ _ _ H) in B2. vm_compute in B2. discriminate.
Qed.

(** [x.split(None, max)] and [x.rsplit(None, max)] of str, for any notion of whitespace.
    Missing for the full claim: [max = 0] and a text of nothing but whitespace. *)
Theorem C58_str_words_partial : forall space x max,
  max <> 0 \/ sdata x = [] \/ ~ all_are space (sdata x) ->
  (exists out, str_split space x None max = Ok out /\
               words space max (sdata x) (map sdata out)) /\
  (exists out, str_rsplit space x None max = Ok out /\
               rwords space max (sdata x) (map sdata out)).
Proof. intros space x max H. split; [now apply ssplit_space|now apply srsplit_space]. Qed.

Example ex_str_words :
  exists out, str_split is_space (ascii_text ex_spaced) None 1 = Ok out /\
              map sdata out = [[97]; [98; 32]].
Proof. eexists. split; vm_compute; reflexivity. Qed.

(** [" ".split(None, 0)] is [[""]] instead of [[]]; so is [rsplit]. *)
Theorem C58_str_words_of_blank_refuted :
  exists x,
    (exists out, str_split is_space x None 0 = Ok out /\
                 ~ words is_space 0 (sdata x) (map sdata out)) /\
    (exists out, str_rsplit is_space x None 0 = Ok out /\
                 ~ rwords is_space 0 (sdata x) (map sdata out)).
Proof.
  exists (ascii_text [32]). assert (S : all_are is_space [32]) by (apply Forall_cons; [reflexivity|apply Forall_nil]).
  split; eexists; (split; [vm_compute; reflexivity|]); intro H.
  - pose proof (words_unique _ _ _ _ H _ (words_none is_space 0 [32] S)) as E. discriminate.
  - pose proof (rwords_unique _ _ _ _ H _ (rwords_none is_space 0 [32] S)) as E. discriminate.
Qed.

(** ** Lines *)

Theorem C58_bytes_splitlines : forall x keepends,
  exists out, bytes_splitlines x keepends = Ok out /\
    lines (fun c => (c =? 10) || (c =? 13)) keepends (bdata x) (map bdata out).
Proof. exact bytes_splitlines_ok. Qed.

(** Python's line breaks in str *)
Definition python_breaks : list Z := [10; 11; 12; 13; 28; 29; 30; 133; 8232; 8233].

Theorem C58_str_splitlines : forall x keepends,
  (exists out, str_splitlines x keepends = Ok out /\
     lines str_break keepends (sdata x) (map sdata out)) /\
  (forall c, str_break c = true <-> In c python_breaks).
Proof.
  intros x keepends. split; [apply str_splitlines_ok|]. intro c. unfold str_break, python_breaks.
  rewrite !orb_true_iff, !Z.eqb_eq. cbn [In]. split; intuition.
Qed.

Example ex_splitlines :
  bytes_splitlines (Some [97; 13; 10; 10; 98; 13]) true
    = Ok [Some [97; 13; 10]; Some [10]; Some [98; 13]] /\
  bytes_splitlines (Some [97; 13; 10; 10; 98; 13]) false = Ok [Some [97]; Some []; Some [98]].
Proof. split; vm_compute; reflexivity. Qed.

(** With the ends kept, the lines put together are the text. *)
Theorem C58_lines_give_text_back : forall bx sx,
  (exists out, bytes_splitlines bx true = Ok out /\ concat (map bdata out) = bdata bx) /\
  (exists out, str_splitlines sx true = Ok out /\ concat (map sdata out) = sdata sx).
Proof.
  intros bx sx.
  destruct (bytes_splitlines_ok bx true) as (o1 & A1 & A2).
  destruct (str_splitlines_ok sx true) as (o2 & B1 & B2).
  split; [exists o1|exists o2]; (split; [assumption|]); eapply lines_concat; eassumption.
Qed.

(** ** Joining *)

Theorem C58_join : forall (bsep : bytes) bitems (ssep : str) sitems,
  bdata (bytes_join bsep bitems) = joined (bdata bsep) (map bdata bitems) /\
  sdata (str_join ssep sitems) = joined (sdata ssep) (map sdata sitems).
Proof. intros. split; [apply bytes_join_ok|apply str_join_ok]. Qed.

Example ex_join :
  bytes_join ex_comma [Some [97]; None; Some [98]] = Some [97; 44; 44; 98] /\
  str_join (ascii_text [44]) [ascii_text [97]; Some (mk_slayout 4 [128512])]
    = Some (mk_slayout 4 [97; 44; 128512]).
Proof. split; vm_compute; reflexivity. Qed.

(** Joining the pieces of a split with the separator gives the text back. *)
Theorem C58_join_inverts_split : forall space (bx bsep : bytes) (sx ssep : str) max bout sout,
  (bytes_split bx (Some bsep) max = Ok bout \/ bytes_rsplit bx (Some bsep) max = Ok bout ->
   bdata (bytes_join bsep bout) = bdata bx) /\
  (str_split space sx (Some ssep) max = Ok sout \/ str_rsplit space sx (Some ssep) max = Ok sout ->
   sdata (str_join ssep sout) = sdata sx).
Proof.
  intros space bx bsep sx ssep max bout sout. split; intro H.
  - rewrite bytes_join_ok.
    assert (Hs : bdata bsep <> []).
    { intro E. destruct H as [H|H]; unfold bytes_split, bytes_rsplit, split_call, blen in H;
        rewrite E in H; discriminate. }
    assert (N : (bdata bx <> [] \/ max <> 0) \/ (bdata bx = [] /\ max = 0)).
    { destruct (bdata bx), (Z.eq_dec max 0); auto; left; left; discriminate. }
    destruct N as [N|[N ->]].
    + destruct (C58_bytes_split_partial bx bsep max Hs N) as [(o1 & A1 & A2) (o2 & B1 & B2)].
      destruct H as [H|H].
      * rewrite A1 in H. injection H as ->. eapply splits_joined; eassumption.
      * rewrite B1 in H. injection H as ->. eapply rsplits_joined; eassumption.
    + unfold bytes_split, bytes_rsplit, split_call in H.
      destruct (blen bsep =? 0); [destruct H; discriminate|]. rewrite N in *.
      destruct H as [H|H]; cbn in H; injection H as <-; reflexivity.
  - rewrite str_join_ok.
    assert (Hs : sdata ssep <> []).
    { intro E. destruct H as [H|H]; unfold str_split, str_rsplit, ssplit_call, slen in H;
        rewrite E in H; discriminate. }
    destruct (C58_str_split space sx ssep max Hs) as [(o1 & A1 & A2) (o2 & B1 & B2)].
    destruct H as [H|H].
    + rewrite A1 in H. injection H as ->. eapply splits_joined; eassumption.
    + rewrite B1 in H. injection H as ->. eapply rsplits_joined; eassumption.
Qed.

Example ex_join_inverts :
  exists out, bytes_rsplit (Some ex_list) (Some ex_comma) 2 = Ok out /\ length out = 3%nat /\
              bytes_join ex_comma out = Some ex_list.
Proof. eexists. split; [|split]; vm_compute; reflexivity. Qed.

(** ** Partitions *)

Theorem C58_bytes_partition : forall x sep, bdata sep <> [] ->
  (exists a m b, bytes_partition x sep = Ok (a, m, b) /\
     partitions (bdata x) (bdata sep) (bdata a) (bdata m) (bdata b)) /\
  (exists a m b, bytes_rpartition x sep = Ok (a, m, b) /\
     rpartitions (bdata x) (bdata sep) (bdata a) (bdata m) (bdata b)).
Proof. exact bytes_partition_ok. Qed.

Theorem C58_str_partition : forall x sep, sdata sep <> [] ->
  (exists a m b, str_partition x sep = Ok (a, m, b) /\
     partitions (sdata x) (sdata sep) (sdata a) (sdata m) (sdata b)) /\
  (exists a m b, str_rpartition x sep = Ok (a, m, b) /\
     rpartitions (sdata x) (sdata sep) (sdata a) (sdata m) (sdata b)).
Proof. exact str_partition_ok. Qed.

Example ex_partition :
  bytes_partition (Some ex_list) ex_comma = Ok (Some [97], Some [44], Some [44; 98; 44; 99]) /\
  bytes_rpartition (Some ex_list) ex_comma = Ok (Some [97; 44; 44; 98], Some [44], Some [99]).
Proof. split; vm_compute; reflexivity. Qed.

(** ** The relations of the specification leave no choice. *)
Theorem C58_answers_are_determined : forall sep space k x,
  (forall o o', splits sep k x o -> splits sep k x o' -> o = o') /\
  (forall o o', rsplits sep k x o -> rsplits sep k x o' -> o = o') /\
  (forall o o', words space k x o -> words space k x o' -> o = o') /\
  (forall o o', rwords space k x o -> rwords space k x o' -> o = o') /\
  (forall brk keepends o o', brk 13 = true ->
     lines brk keepends x o -> lines brk keepends x o' -> o = o').
Proof.
  intros sep space k x.
  split; [intros o o' H H'; eapply splits_unique; eassumption|].
  split; [intros o o' H H'; eapply rsplits_unique; eassumption|].
  split; [intros o o' H H'; eapply words_unique; eassumption|].
  split; [intros o o' H H'; eapply rwords_unique; eassumption|].
  intros brk keepends o o' Hb H H'. eapply lines_unique; eassumption.
Qed.

Print Assumptions C58_bytes_split_partial.
Print Assumptions C58_bytes_split_of_empty_refuted.
Print Assumptions C58_str_split.
Print Assumptions C58_empty_separator.
Print Assumptions C58_bytes_words_partial.
Print Assumptions C58_bytes_words_limited_refuted.
Print Assumptions C58_str_words_partial.
Print Assumptions C58_str_words_of_blank_refuted.
Print Assumptions C58_bytes_splitlines.
Print Assumptions C58_str_splitlines.
Print Assumptions C58_lines_give_text_back.
Print Assumptions C58_join.
Print Assumptions C58_join_inverts_split.
Print Assumptions C58_bytes_partition.
Print Assumptions C58_str_partition.
Print Assumptions C58_answers_are_determined.
