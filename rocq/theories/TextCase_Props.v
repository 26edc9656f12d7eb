(** Property C74: changing the case of text and bytes in compiled code. *)
From Coq Require Import List ZArith Lia.
From Verif Require Import Base Text_Model TextCell_Model TextCase_Model TextCase_Spec TextCase_Proofs.
Import ListNotations.
Open Scope Z_scope.
Open Scope list_scope.

(** Whatever the characters are, the result is a text with the cells of the old one, and no memory is written that was not allocated.
    Partial: for text of at most 2^26 characters, see [C74_large_text_refuted]. *)
Theorem C74_memory_partial : forall t s m, proper t -> stored s -> slen s <= 2 ^ 26 ->
  In m [str_upper t; str_lower t; str_casefold t; str_capitalize t; str_swapcase t; str_title t] ->
  exists s', m s = Ok s' /\ stored s' /\ swidth s' = swidth s.
Proof. intros t s m P S L J. exact (methods_end t s P S L m J). Qed.
Print Assumptions C74_memory_partial.

(** If Python's result fits into these cells, it is the result.  Partial: where it does not fit, where a capital sigma ends a word, for
    titles of letters without case and cased characters that are no letters, and for [capitalize] since Python 3.8, see below. *)
Theorem C74_text_partial : forall t s, proper t -> stored s -> slen s <= 2 ^ 26 ->
  (fit s (python_upper t (sdata s)) -> gives s (str_upper t s) (python_upper t (sdata s))) /\
  (fit s (python_casefold t (sdata s)) -> gives s (str_casefold t s) (python_casefold t (sdata s))) /\
  (no_final_sigma t (sdata s) ->
    (fit s (python_lower t (sdata s)) -> gives s (str_lower t s) (python_lower t (sdata s))) /\
    (fit s (python_swapcase t (sdata s)) -> gives s (str_swapcase t s) (python_swapcase t (sdata s))) /\
    (fit s (python_capitalize t false (sdata s)) -> gives s (str_capitalize t s) (python_capitalize t false (sdata s))) /\
    (Forall (plain t) (sdata s) -> fit s (python_title t (sdata s)) -> gives s (str_title t s) (python_title t (sdata s)))).
Proof.
  intros t s P S L. assert (U := upper_gives t s P S L). assert (C := casefold_gives t s P S L).
  split; [intros F; now rewrite <- (cut_fit s _ F)|]. split; [intros F; now rewrite <- (cut_fit s _ F)|].
  intros N. assert (LO := lower_gives t s P S L N). assert (SW := swapcase_gives t s P S L N). assert (CA := capitalize_gives t s P S L N).
  split; [intros F; now rewrite <- (cut_fit s _ F)|]. split; [intros F; now rewrite <- (cut_fit s _ F)|].
  split; [intros F; now rewrite <- (cut_fit s _ F)|].
  intros PL F. assert (TI := title_gives t s P S L N PL). now rewrite <- (cut_fit s _ F).
Qed.
Print Assumptions C74_text_partial.

(** Where it does not fit, the upper bits of each character are lost. *)
Theorem C74_cut : forall t s, proper t -> stored s -> slen s <= 2 ^ 26 ->
  gives s (str_upper t s) (cut s (python_upper t (sdata s))) /\ gives s (str_casefold t s) (cut s (python_casefold t (sdata s))).
Proof. intros t s P S L. split; [now apply upper_gives|now apply casefold_gives]. Qed.
Print Assumptions C74_cut.

(** Text of ASCII characters is changed as the bytes of the same characters are. *)
Theorem C74_text_like_bytes : forall t s x, proper t -> knows_ascii t -> slen s <= 2 ^ 26 -> In (swidth s) [1; 2; 4] ->
  sdata s = bdata x -> Forall (fun c => 0 <= c < 128) (bdata x) ->
  (exists s', str_upper t s = Ok s' /\ sdata s' = bdata (bytes_upper x)) /\ (exists s', str_lower t s = Ok s' /\ sdata s' = bdata (bytes_lower x)) /\
  (exists s', str_casefold t s = Ok s' /\ sdata s' = bdata (bytes_lower x)) /\
  (exists s', str_capitalize t s = Ok s' /\ sdata s' = bdata (bytes_capitalize x)) /\
  (exists s', str_swapcase t s = Ok s' /\ sdata s' = bdata (bytes_swapcase x)) /\ (exists s', str_title t s = Ok s' /\ sdata s' = bdata (bytes_title x)).
Proof. exact ascii_methods. Qed.
Print Assumptions C74_text_like_bytes.

(** Bytes: each letter of ASCII is changed to the other case or kept, according to the method and the byte before it, and nothing else. *)
Theorem C74_bytes : forall x,
  bdata (bytes_upper x) = map (fun c => if (97 <=? c) && (c <=? 122) then c - 32 else c)%bool (bdata x) /\
  bdata (bytes_lower x) = map (fun c => if (65 <=? c) && (c <=? 90) then c + 32 else c)%bool (bdata x) /\
  bdata (bytes_swapcase x) = map (fun c => if (97 <=? c) && (c <=? 122) then c - 32 else if (65 <=? c) && (c <=? 90) then c + 32 else c)%bool (bdata x) /\
  bdata (bytes_capitalize x) =
    map (fun y => let '(before, c, _) := y in match before with nil => c_toupper c | _ => c_tolower c end) (contexts nil (bdata x)) /\
  bdata (bytes_title x) = map title_at (contexts nil (bdata x)) /\ bdata (bytes_swapcase (bytes_swapcase x)) = bdata x.
Proof.
  intros x. repeat apply conj; try (destruct x; reflexivity).
  - destruct x as [l|]; [|reflexivity]. cbn [bytes_swapcase bdata]. apply map_ext. intros c. unfold c_toupper, c_tolower, c_lower, c_upper.
    destruct ((97 <=? c) && (c <=? 122))%bool, ((65 <=? c) && (c <=? 90))%bool; reflexivity.
  - apply capitalize_contexts.
  - destruct x as [l|]; [|reflexivity]. exact (title_loop_right l nil).
  - destruct x as [l|]; [|reflexivity]. cbn [bytes_swapcase bdata]. rewrite map_map. rewrite <- (map_id l) at 2. apply map_ext. intros c.
    unfold c_toupper, c_tolower, c_lower, c_upper. cbv beta.
    destruct (Z.leb_spec 97 c), (Z.leb_spec c 122), (Z.leb_spec 65 c), (Z.leb_spec c 90); cbn [andb]; try lia;
      repeat (match goal with |- context [Z.leb ?a ?b] => destruct (Z.leb_spec a b) end; cbn [andb]; try lia).
Qed.
Print Assumptions C74_bytes.

(** Text in cells of one byte: the upper case of U+00FF is U+0178, and compiled code makes it U+0078, the letter x. *)
Theorem C74_small_cells_refuted : forall t, to_upper t 255 = [376] ->
  str_upper t (from_python [255]) = Ok (Some (mk_slayout 1 [120])) /\ python_upper t [255] = [376].
Proof. intros t U. unfold str_upper, change_case, each, python_upper. cbn. rewrite U. split; reflexivity. Qed.
Print Assumptions C74_small_cells_refuted.

(** Capital sigma at the end of a word is made small sigma, not final sigma. *)
Theorem C74_final_sigma_refuted : forall t, to_lower t 913 = [945] -> to_lower t 931 = [963] -> is_cased t 913 = true -> is_case_ignorable t 913 = false ->
  str_lower t (from_python [913; 931]) = Ok (Some (mk_slayout 2 [945; 963])) /\ python_lower t [913; 931] = [945; 962].
Proof.
  intros t A S C I. unfold str_lower, change_case, each, python_lower. cbn. rewrite A, S, C, I. split; reflexivity.
Qed.
Print Assumptions C74_final_sigma_refuted.

(** [capitalize] puts the first character in upper case, where Python puts it in title case since 3.8: U+01C6. *)
Theorem C74_capitalize_refuted : forall t, to_upper t 454 = [452] -> to_title t 454 = [453] ->
  str_capitalize t (from_python [454]) = Ok (Some (mk_slayout 2 [452])) /\ python_capitalize t true [454] = [453].
Proof. intros t U T. unfold str_capitalize, change_case, choose_capital, python_capitalize. cbn. rewrite U, T. split; reflexivity. Qed.
Print Assumptions C74_capitalize_refuted.

(** [title] takes letters without case for the start of a word: U+4E2D before a. *)
Theorem C74_title_refuted : forall t, is_alphabetic t 20013 = true -> is_cased t 20013 = false -> to_title t 20013 = [20013] ->
  is_alphabetic t 97 = true -> to_lower t 97 = [97] -> to_title t 97 = [65] ->
  str_title t (from_python [20013; 97]) = Ok (Some (mk_slayout 2 [20013; 97])) /\ python_title t [20013; 97] = [20013; 65].
Proof.
  intros t A C T B L U. unfold str_title, change_case, choose_title, python_title. cbn. rewrite A, C, T, B, L, U. split; reflexivity.
Qed.
Print Assumptions C74_title_refuted.

(** The memory for a text of 2^29 characters in cells of four bytes is miscalculated. *)
Theorem C74_large_text_refuted : forall t l, proper t -> bytes_per_codepoint l = 4 -> 2 ^ 29 <= zlen (codepoints l) < 2 ^ 30 - 8 ->
  str_upper t (Some l) = Err UndefinedBehaviour.
Proof. intros t l P W B. now apply large_text. Qed.
Print Assumptions C74_large_text_refuted.

(** The lower case of the Kelvin sign is the letter k, but in cells of two bytes: it is another key of a dictionary than k. *)
Theorem C74_hash_refuted : forall t, to_lower t 8490 = [107] -> exists s,
  str_lower t (from_python [8490]) = Ok s /\ sdata s = [107] /\ str_cmp s (from_python [107]) = 0 /\ str_hash s <> str_hash (from_python [107]).
Proof.
  intros t E. exists (Some (mk_slayout 2 [107])). unfold str_lower, change_case, each. cbn [from_python]. split; [|split; [reflexivity|split; [reflexivity|]]].
  - cbn. rewrite E. reflexivity.
  - vm_compute. discriminate.
Qed.
Print Assumptions C74_hash_refuted.

(** ** The hypotheses can be met *)

(** Tables with the letters of ASCII and sharp s. *)
Definition some_tables : tables := mk_tables
  (fun c => if c =? 223 then [83; 83] else [c_toupper c]) (fun c => if c =? sigma then [963] else [c_tolower c])
  (fun c => if c =? 223 then [83; 115] else [c_toupper c]) (fun c => if c =? 223 then [115; 115] else [c_tolower c])
  (fun c => c_lower c || (c =? 223))%bool c_upper (fun c => c_alpha c || (c =? 223))%bool (fun c => c_alpha c || (c =? 223))%bool (fun c => c =? 39).
Example ex_proper : proper some_tables /\ knows_ascii some_tables.
Proof.
  split; [split|].
  - intros c. cbn [to_upper to_lower to_title to_folded some_tables]. destruct (c =? 223), (c =? sigma); cbv; intuition discriminate.
  - reflexivity.
  - intros c. cbn [is_uppercase is_lowercase some_tables]. unfold c_upper, c_lower. lia.
  - intros c C. cbn. destruct (Z.eqb_spec c 223); [lia|]. destruct (Z.eqb_spec c sigma) as [-> | _]; [unfold sigma in C; lia|]. rewrite !Bool.orb_false_r. repeat split.
Qed.
(** Ten times sharp s: the memory grows twice. *)
Example ex_grow : str_upper some_tables (from_python (repeat 223 10)) = Ok (Some (mk_slayout 1 (repeat 83 20))) /\
  stored (from_python (repeat 223 10)) /\ fit (from_python (repeat 223 10)) (python_upper some_tables (repeat 223 10)).
Proof. split; [vm_compute; reflexivity|]. split; [split; [now left|]|]; repeat constructor; vm_compute; discriminate. Qed.
(** "it's" and "hello WORLD" *)
Example ex_title : str_title some_tables (from_python [105; 116; 39; 115]) = Ok (Some (mk_slayout 1 [73; 116; 39; 83])) /\
  bytes_title (Some [104; 105; 32; 87; 79]) = Some [72; 105; 32; 87; 111] /\ Forall (plain some_tables) [105; 116; 39; 115] /\
  no_final_sigma some_tables [105; 116; 39; 115].
Proof.
  split; [vm_compute; reflexivity|]. split; [vm_compute; reflexivity|]. split.
  - repeat apply Forall_cons; try apply Forall_nil; (split; [reflexivity|]); vm_compute; intros N; try discriminate N; split; reflexivity.
  - intros b a J. cbn in J. intuition discriminate.
Qed.
