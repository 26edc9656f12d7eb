(** Property C73: questions about the characters of text and bytes in compiled code. *)
From Coq Require Import List ZArith Lia.
From Verif Require Import Base Text_Model TextAsk_Model TextAsk_Table TextAsk_Spec TextAsk_Proofs Utf8_Model.
Import ListNotations.
Open Scope Z_scope.
Open Scope list_scope.

(** The table that the generator writes for any Python holds, once it is unpacked, what that Python answers for every
    character; its entries fit in the sixteen bits that they are kept in. *)
Theorem C73_generated_table : forall p, exists runs a,
  generate 1114111 (flags_of p) = Ok runs /\ initialize_uprops 1114112 (zlen runs) runs = Ok a /\ table_of p a /\
  Forall (fun '(v, n) => 0 <= v < 65536 /\ 0 <= n < 65536) runs.
Proof.
  intros p. destruct (generate_right 1114111 (flags_of p) ltac:(lia)) as (runs & E & SH & V & X).
  assert (P : proper runs) by (revert SH; apply Forall_impl; intros [v n]; lia).
  assert (L : zlen (expand runs) = 1114112).
  { rewrite X. unfold zlen. rewrite map_length, count_up_length. lia. }
  destruct (initialize_right 1114112 runs P L) as (a & I & A). exists runs, a. split; [exact E|]. split; [exact I|]. split.
  - intros c C. rewrite (A c C), value_nth by (auto; lia). rewrite X.
    rewrite nth_indep with (d' := flags_of p 0) by (rewrite map_length, count_up_length; lia).
    rewrite map_nth, count_up_nth by lia. f_equal. lia.
  - unfold short in SH. rewrite Forall_forall in SH |- *. intros [v n] J. specialize (SH _ J). cbv beta iota in SH. destruct (V v n J) as [j ->]. assert (F := flags_small p j). lia.
Qed.
Print Assumptions C73_generated_table.

(** So does the table that is shipped, for the answers that are packed in it: unpacking fills it and not more. *)
Theorem C73_shipped_table : exists a, initialize_uprops 1114112 3261 uprops_runlength = Ok a /\ table_of shipped a.
Proof. exact shipped_table. Qed.
Print Assumptions C73_shipped_table.
(** Of the shipped answers: decimals are digits, digits are numeric, and no character is in two cases, or numeric and a space, or a
    space and a letter. *)
Theorem C73_shipped_answers_are_consistent : forall c, 0 <= c < 1114112 ->
  (is_decimal shipped c = true -> is_digit shipped c = true) /\ (is_digit shipped c = true -> is_numeric shipped c = true) /\
  (is_upper shipped c = true -> is_lower shipped c = false) /\ (is_title shipped c = true -> is_lower shipped c = false) /\
  (is_numeric shipped c = true -> is_space shipped c = false) /\ (is_space shipped c = true -> is_alpha shipped c = false).
Proof. exact shipped_nested. Qed.
Print Assumptions C73_shipped_answers_are_consistent.
(** The shipped whitespace is that of Unicode. *)
Theorem C73_shipped_spaces : forall c, 0 <= c < 1114112 -> is_space shipped c = true <-> In c unicode_spaces.
Proof. exact shipped_spaces. Qed.
Print Assumptions C73_shipped_spaces.

(** The questions about text are answered as the answers for its characters demand.  Partial: for text with code points beyond the
    last one, which decoding can make, see below; and [isidentifier] is left to Python. *)
Theorem C73_text_partial : forall p a s, table_of p a -> nested p -> points_of s ->
  answers (isalpha a s) (says_isalpha p (sdata s)) /\ answers (isalnum a s) (says_isalnum p (sdata s)) /\
  answers (isdecimal a s) (says_isdecimal p (sdata s)) /\ answers (isdigit a s) (says_isdigit p (sdata s)) /\
  answers (isnumeric a s) (says_isnumeric p (sdata s)) /\ answers (isspace a s) (says_isspace p (sdata s)) /\
  answers (isprintable a s) (says_isprintable p (sdata s)) /\ answers (islower a s) (says_islower p (sdata s)) /\
  answers (isupper a s) (says_isupper p (sdata s)) /\ answers (istitle a s) (says_istitle p (sdata s)).
Proof.
  intros p a s T N P. repeat split; auto using isalpha_right, isalnum_right, isdecimal_right, isdigit_right, isnumeric_right, isspace_right,
    isprintable_right, islower_right, isupper_right, istitle_right.
Qed.
Print Assumptions C73_text_partial.

(** The questions about bytes are answered likewise, with the letters, digits and spaces of ASCII. *)
Theorem C73_bytes : forall x, Forall (fun c => 0 <= c < 256) (bdata x) ->
  (bytes_isalpha x = true <-> says_isalpha ascii (bdata x)) /\ (bytes_isalnum x = true <-> says_isalnum ascii (bdata x)) /\
  (bytes_isdigit x = true <-> says_isdigit ascii (bdata x)) /\ (bytes_isspace x = true <-> says_isspace ascii (bdata x)) /\
  (bytes_islower x = true <-> says_islower ascii (bdata x)) /\ (bytes_isupper x = true <-> says_isupper ascii (bdata x)) /\
  (bytes_istitle x = true <-> says_istitle ascii (bdata x)).
Proof.
  intros x F. destruct (bytes_right x) as (A & B & C & D & E & G). assert (T := bytes_istitle_right x F). tauto.
Qed.
Print Assumptions C73_bytes.

(** Text of ASCII characters gets the answers of the bytes of the same characters, with the table that is shipped. *)
Theorem C73_text_like_bytes : forall a s x, initialize_uprops 1114112 3261 uprops_runlength = Ok a ->
  sdata s = bdata x -> Forall (fun c => 0 <= c < 128) (bdata x) ->
  isalpha a s = Ok (bytes_isalpha x) /\ isalnum a s = Ok (bytes_isalnum x) /\ isdigit a s = Ok (bytes_isdigit x) /\
  islower a s = Ok (bytes_islower x) /\ isupper a s = Ok (bytes_isupper x) /\ istitle a s = Ok (bytes_istitle x).
Proof.
  intros a s x I E F. destruct shipped_table as (b & J & T). rewrite J in I. injection I as <-. now apply text_like_bytes.
Qed.
Print Assumptions C73_text_like_bytes.

(** Bytes that are not UTF-8 are decoded to a text whose characters are looked up beyond the end of the table. *)
Theorem C73_decoded_text_refuted : exists s, bytes_decode (Some [247; 191; 191; 191]) NotGiven = Some (Ok s) /\
  forall a, isalpha a s = Err UndefinedBehaviour.
Proof. eexists. split; [vm_compute; reflexivity|]. intros a. reflexivity. Qed.
Print Assumptions C73_decoded_text_refuted.

(** ** The hypotheses can be met *)

Example ex_nested : nested ascii /\ table_of ascii (flags_of ascii).
Proof. split; [exact nested_ascii|]. now intros c _. Qed.
(** "Hello World" is a title, "Hello world" is not. *)
Example ex_title : says_istitle ascii [72; 105; 32; 87; 111] /\ ~ says_istitle ascii [72; 105; 32; 119; 111] /\
  istitle (flags_of ascii) (Some (mk_slayout 1 [72; 105; 32; 87; 111])) = Ok true /\ bytes_istitle (Some [72; 105; 32; 119; 111]) = false.
Proof.
  assert (B := bytes_istitle_right (Some [72; 105; 32; 87; 111]) ltac:(repeat constructor; lia)).
  assert (C := bytes_istitle_right (Some [72; 105; 32; 119; 111]) ltac:(repeat constructor; lia)).
  split; [apply B; vm_compute; reflexivity|]. split; [intros X; apply C in X; vm_compute in X; discriminate|]. split; vm_compute; reflexivity.
Qed.
(** "aÅλ" in the shipped table. *)
Example ex_shipped : map (is_alpha shipped) [97; 197; 955; 32; 1632] = [true; true; true; false; false] /\
  map (is_decimal shipped) [97; 1632; 178] = [false; true; false] /\ is_digit shipped 178 = true /\ is_title shipped 453 = true /\
  points_of (Some (mk_slayout 2 [97; 197; 955])).
Proof. repeat split; try (vm_compute; reflexivity). repeat constructor; vm_compute; discriminate. Qed.
(** Runs of a small table, longer than a run may be. *)
Example ex_generate : generate 70000 (fun c => if c <? 3 then 1 else 2) = Ok [(1, 3); (2, 65535); (2, 4463)].
Proof. vm_compute. reflexivity. Qed.
