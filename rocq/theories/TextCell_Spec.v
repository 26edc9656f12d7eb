(** The text that compiled code can make, and what is to be expected of it. *)
From Verif Require Import Base Text_Model TextSplit_Model TextEdit_Model Utf8_Model Utf8_Spec TextCell_Model.
Open Scope Z_scope.
Open Scope list_scope.

Section Made.
(** The table of whitespace code points; and whether texts are joined to the empty text too. *)
Variables (space : Z -> bool) (joining : bool).

(** Everything that code can make, in any number of steps, from the strings and bytes that it is given. *)
Inductive made : str -> Prop :=
| made_python : forall cs, Forall (fun c => 0 <= c < 1114112) cs -> made (from_python cs)
| made_chr : forall c s, str_chr c = Ok s -> made s
| made_decode : forall bs e s, Forall is_byte bs -> bytes_decode (Some bs) e = Some (Ok s) -> made s
| made_concat : forall x y, made x -> made y -> made (str_concat x y)
| made_mult : forall x n, made x -> made (str_mult x n)
| made_item : forall x i y, made x -> str_getitem x i = Ok y -> made y
| made_slice : forall x a b, made x -> made (getsubstr x a b)
| made_join : forall sep items, joining = true \/ sdata (str_join sep items) <> nil -> made sep -> (forall i, In i items -> made i) ->
    made (str_join sep items)
| made_replace : forall old_python x old new max y, joining = true \/ sdata y <> nil -> made x -> made old -> made new ->
    str_replace old_python x old new max = Ok y -> made y
| made_strip : forall x values l r y, made x -> str_strip space x values l r = Ok y -> made y
| made_split : forall x sep max ys y, made x -> str_split space x sep max = Ok ys -> In y ys -> made y
| made_rsplit : forall x sep max ys y, made x -> str_rsplit space x sep max = Ok ys -> In y ys -> made y
| made_lines : forall x keepends ys y, made x -> str_splitlines x keepends = Ok ys -> In y ys -> made y
| made_partition : forall x sep a b c y, made x -> made sep -> str_partition x sep = Ok (a, b, c) -> In y [a; b; c] -> made y
| made_rpartition : forall x sep a b c y, made x -> made sep -> str_rpartition x sep = Ok (a, b, c) -> In y [a; b; c] -> made y
| made_center : forall x width fill y, made x -> (forall f, fill = Some f -> made f) -> str_center x width fill = Ok y -> made y
| made_ljust : forall x width fill y, made x -> (forall f, fill = Some f -> made f) -> str_ljust x width fill = Ok y -> made y
| made_rjust : forall x width fill y, made x -> (forall f, fill = Some f -> made f) -> str_rjust x width fill = Ok y -> made y
| made_tabs : forall x tabsize y, joining = true \/ sdata y <> nil -> made x -> str_expandtabs x tabsize = Ok y -> made y
| made_zfill : forall x width y, joining = true \/ sdata y <> nil -> made x -> str_zfill x width = Ok y -> made y.
End Made.

(** What is made without taking text apart, and without joining less than two texts or to nothing. *)
Inductive put_together : str -> Prop :=
| from_python_text : forall cs, Forall (fun c => 0 <= c < 1114112) cs -> put_together (from_python cs)
| from_chr : forall c s, str_chr c = Ok s -> put_together s
| from_concat : forall x y, put_together x -> put_together y -> put_together (str_concat x y)
| from_mult : forall x n, put_together x -> put_together (str_mult x n)
| from_join : forall sep items, put_together sep -> (forall i, In i items -> put_together i) ->
    (2 <= List.length items)%nat -> sdata (str_join sep items) <> nil -> put_together (str_join sep items).

(** The order of texts: the first difference decides, else the shorter one is first. *)
Inductive precedes : list Z -> list Z -> Prop :=
| shorter : forall c r, precedes nil (c :: r)
| smaller : forall c d r s, c < d -> precedes (c :: r) (d :: s)
| further : forall c r s, precedes r s -> precedes (c :: r) (c :: s).
