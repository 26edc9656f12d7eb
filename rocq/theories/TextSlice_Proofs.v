(** Proofs about items and slices of text. *)
From Coq Require Import List ZArith Bool Lia ZifyBool ZifyNat.
From Verif Require Import Base PyList Text_Model TextSlice_Model TextSearch_Proofs.
From Verif Require ListOf_Spec.
Import ListNotations.
Open Scope Z_scope.
Open Scope result_scope.

(** The positions from [i] up to [j] *)
Lemma filter_seq : forall (i j : Z) n m, 
  filter (fun x => (i <=? x) && (x <? j) && ((x - i) mod 1 =? 0)) (map Z.of_nat (seq m n)) =
  map Z.of_nat (seq (Z.to_nat (Z.max i (Z.of_nat m)))
    (Z.to_nat (Z.min j (Z.of_nat (m + n)) - Z.max (Z.max 0 i) (Z.of_nat m)))).
Proof.
  intros i j n. induction n; intro m; cbn [seq map filter].
  - replace (Z.to_nat (Z.min j (Z.of_nat (m + 0)) - Z.max (Z.max 0 i) (Z.of_nat m))) with 0%nat by lia.
    reflexivity.
  - rewrite IHn, Z.mod_1_r. cbn [Z.eqb]. rewrite andb_true_r.
    destruct ((i <=? Z.of_nat m) && (Z.of_nat m <? j)) eqn:E.
    + replace (Z.to_nat (Z.min j (Z.of_nat (m + S n)) - Z.max (Z.max 0 i) (Z.of_nat m)))
        with (S (Z.to_nat (Z.min j (Z.of_nat (S m + n)) - Z.max (Z.max 0 i) (Z.of_nat (S m))))) by lia.
      cbn [seq map]. f_equal; [lia|]. f_equal. f_equal. lia.
    + destruct (Z.ltb_spec (Z.of_nat m) i).
      * f_equal. f_equal; lia.
      * replace (Z.to_nat (Z.min j (Z.of_nat (S m + n)) - _)) with 0%nat by lia.
        replace (Z.to_nat (Z.min j (Z.of_nat (m + S n)) - _)) with 0%nat by lia. reflexivity.
Qed.

Lemma items_at_seq : forall (xs : list Z) n m, (m + n <= length xs)%nat ->
  ListOf_Spec.items_at xs (map Z.of_nat (seq m n)) = firstn n (skipn m xs).
Proof.
  intros xs n. induction n; intros m H; [reflexivity|].
  cbn [seq map]. unfold ListOf_Spec.items_at in *. cbn [flat_map].
  rewrite Nat2Z.id. rewrite IHn by lia.
  destruct (nth_error xs m) as [v|] eqn:E; [|apply nth_error_None in E; lia].
  destruct (nth_error_split xs m E) as (a & b & -> & Hl). subst m.
  rewrite !skipn_app, skipn_all, (skipn_all2 a) by lia. rewrite Nat.sub_diag.
  replace (S (length a) - length a)%nat with 1%nat by lia. reflexivity.
Qed.

(** Python's slice, as the run of elements between the two bounds *)
Lemma python_slice_run : forall x lo hi,
  let n := zlen x in
  let i := ListOf_Spec.bound n 0 n 0 lo in
  let j := ListOf_Spec.bound n 0 n n hi in
  python_slice x lo hi = sub_list x i j.
Proof.
  intros x lo hi n i j. unfold python_slice. fold n.
  assert (Hn : n = Z.of_nat (length x)) by reflexivity.
  assert (Hi : 0 <= i <= n) by (unfold i, ListOf_Spec.bound; destruct lo; lia).
  assert (Hj : 0 <= j <= n) by (unfold j, ListOf_Spec.bound; destruct hi; lia).
  unfold ListOf_Spec.slice_positions, ListOf_Spec.positions. cbn [Z.ltb Z.compare]. fold i. fold j.
  rewrite filter_seq. rewrite items_at_seq by lia. unfold sub_list. f_equal; [|f_equal]; lia.
Qed.

Lemma sub_list_empty : forall (x : list Z) a b, b <= a -> sub_list x a b = [].
Proof. intros. unfold sub_list. replace (Z.to_nat (b - a)) with 0%nat by lia. reflexivity. Qed.

Lemma bytes_getslice_python : forall x lo hi,
  bdata (bytes_getslice x lo hi) = python_slice (bdata x) (Some lo) (Some hi).
Proof.
  intros x lo hi. rewrite python_slice_run. unfold ListOf_Spec.bound.
  destruct x as [l|]; cbn [bytes_getslice bdata].
  2:{ unfold sub_list. now rewrite skipn_nil, firstn_nil. }
  assert (0 <= zlen l) by (unfold zlen; lia).
  set (a := if lo <? 0 then lo + zlen l else lo). set (b := if hi <? 0 then hi + zlen l else hi).
  cbv zeta. clearbody a b.
  replace (if zlen l <? (if a <? 0 then 0 else a) then zlen l else if a <? 0 then 0 else a)
    with (Z.max 0 (Z.min (zlen l) a))
    by (destruct (a <? 0) eqn:?; destruct (zlen l <? _) eqn:?; lia).
  replace (if zlen l <? (if b <? 0 then 0 else b) then zlen l else if b <? 0 then 0 else b)
    with (Z.max 0 (Z.min (zlen l) b))
    by (destruct (b <? 0) eqn:?; destruct (zlen l <? _) eqn:?; lia).
  destruct (Z.leb_spec (Z.max 0 (Z.min (zlen l) b)) (Z.max 0 (Z.min (zlen l) a))).
  - now rewrite sub_list_empty.
  - reflexivity.
Qed.

Lemma getsubstr_python : forall x lo hi,
  sdata (getsubstr x lo hi) = python_slice (sdata x) (Some lo) (Some hi).
Proof.
  intros x lo hi. rewrite python_slice_run. unfold ListOf_Spec.bound.
  destruct x as [l|]; cbn [getsubstr sdata].
  2:{ unfold sub_list. now rewrite skipn_nil, firstn_nil. }
  set (n := zlen (codepoints l)). assert (0 <= n) by (unfold n, zlen; lia).
  replace (if lo <? 0 then if lo + n <? 0 then 0 else lo + n else lo)
    with (Z.max 0 (if lo <? 0 then lo + n else lo))
    by (destruct (lo <? 0) eqn:?; [destruct (lo + n <? 0) eqn:?|]; lia).
  replace (if hi <? 0 then if hi + n <? 0 then 0 else hi + n else hi)
    with (Z.max 0 (if hi <? 0 then hi + n else hi))
    by (destruct (hi <? 0) eqn:?; [destruct (hi + n <? 0) eqn:?|]; lia).
  set (a := if lo <? 0 then lo + n else lo). set (b := if hi <? 0 then hi + n else hi).
  cbv zeta. clearbody a b.
  destruct ((Z.max 0 b <? Z.max 0 a) || (n <? Z.max 0 a)) eqn:E.
  - replace (if n <? 0 then n else 0) with 0 by (destruct (n <? 0) eqn:?; lia). cbn.
    rewrite sub_list_empty by lia. reflexivity.
  - replace (if n <? Z.max 0 b then n else Z.max 0 b) with (Z.max 0 (Z.min n b))
      by (destruct (n <? Z.max 0 b) eqn:?; lia).
    replace (Z.max 0 (Z.min n a)) with (Z.max 0 a) by lia.
    destruct (Z.leb_spec (Z.max 0 (Z.min n b)) (Z.max 0 a)).
    + now rewrite sub_list_empty by lia.
    + reflexivity.
Qed.

(** An omitted bound is the beginning or the length. *)
Lemma python_slice_omitted_lower : forall x hi, python_slice x None hi = python_slice x (Some 0) hi.
Proof.
  intros. rewrite !python_slice_run. cbn [ListOf_Spec.bound]. f_equal. cbn. unfold zlen. lia.
Qed.
Lemma python_slice_omitted_upper : forall x lo, python_slice x lo None = python_slice x lo (Some (zlen x)).
Proof.
  intros. rewrite !python_slice_run. cbn [ListOf_Spec.bound]. f_equal.
  assert (0 <= zlen x) by (unfold zlen; lia). replace (zlen x <? 0) with false by lia. lia.
Qed.

Lemma constant_of {A} (o : operand A) : is_constant o = true -> constant_value o = Some (value_of o).
Proof. destruct o; [reflexivity|discriminate]. Qed.

Lemma value_of_len {A} (len : A -> Z) x : value_of (len_of len x) = len (value_of x).
Proof. now destruct x. Qed.

Lemma slice_cases : forall x lower upper,
  python_slice x (option_map value_of lower) (option_map value_of upper) =
  python_slice x (Some (value_of (match lower with None => Known 0 | Some l => l end)))
    (Some (match upper with None => zlen x | Some u => value_of u end)).
Proof.
  intros x [l|] [u|]; cbn [option_map value_of];
    rewrite ?python_slice_omitted_lower, ?python_slice_omitted_upper; reflexivity.
Qed.

Lemma bytes_slice_ok : forall x lower upper, ~ (lower = None /\ upper = None) ->
  bytes_slice x lower upper None =
  Ok (python_slice (bdata (value_of x)) (option_map value_of lower) (option_map value_of upper)).
Proof.
  intros x lower upper H. unfold bytes_slice. rewrite slice_cases.
  assert (E : value_of (match upper with None => len_of blen x | Some u => u end) =
              match upper with None => zlen (bdata (value_of x)) | Some u => value_of u end)
    by (destruct upper; [reflexivity|now destruct x]).
  rewrite <- E. clear E.
  set (lo := match lower with None => Known 0 | Some l => l end).
  set (hi := match upper with None => len_of blen x | Some u => u end).
  assert (G : (if is_constant x && is_constant lo && is_constant hi
     then Ok (python_slice (bdata (value_of x)) (constant_value lo) (constant_value hi))
     else Ok (bdata (bytes_getslice (value_of x) (value_of lo) (value_of hi)))) =
    Ok (python_slice (bdata (value_of x)) (Some (value_of lo)) (Some (value_of hi)))).
  { destruct (is_constant x && is_constant lo && is_constant hi) eqn:C.
    - apply andb_prop in C. destruct C as [C C2]. apply andb_prop in C. destruct C as [_ C1].
      now rewrite !constant_of by assumption.
    - now rewrite bytes_getslice_python. }
  destruct lower, upper; try exact G. exfalso. auto.
Qed.

(** The same for str, unless the text and the lower bound are known and the upper one is not. *)
Lemma str_slice_ok : forall x lower upper, ~ (lower = None /\ upper = None) ->
  (is_constant x = true -> match lower with None => true | Some l => is_constant l end = true ->
   match upper with None => true | Some u => is_constant u end = true) ->
  str_slice x lower upper None =
  Ok (python_slice (sdata (value_of x)) (option_map value_of lower) (option_map value_of upper)).
Proof.
  intros x lower upper H K. unfold str_slice. rewrite slice_cases.
  assert (E : value_of (match upper with None => len_of slen x | Some u => u end) =
              match upper with None => zlen (sdata (value_of x)) | Some u => value_of u end)
    by (destruct upper; [reflexivity|now destruct x]).
  rewrite <- E. clear E.
  set (lo := match lower with None => Known 0 | Some l => l end).
  set (hi := match upper with None => len_of slen x | Some u => u end).
  assert (G : (if is_constant x && is_constant lo
     then Ok (python_slice (sdata (value_of x)) (constant_value lo) (constant_value hi))
     else Ok (sdata (getsubstr (value_of x) (value_of lo) (value_of hi)))) =
    Ok (python_slice (sdata (value_of x)) (Some (value_of lo)) (Some (value_of hi)))).
  { destruct (is_constant x && is_constant lo) eqn:C.
    - apply andb_prop in C. destruct C as [C C2].
      rewrite !constant_of; [reflexivity| |assumption].
      unfold hi. destruct upper; [|destruct x; [reflexivity|discriminate]].
      apply K; [assumption|]. unfold lo in C2. destruct lower; [assumption|reflexivity].
    - now rewrite getsubstr_python. }
  destruct lower, upper; try exact G. exfalso. auto.
Qed.

Lemma bytes_item_ok : forall x i, bytes_item x i = py_get (bdata (value_of x)) (value_of i).
Proof.
  intros x i. unfold bytes_item. destruct (is_constant x && is_constant i); [reflexivity|].
  unfold blen. set (l := bdata (value_of x)). set (k := value_of i). clearbody l k.
  unfold py_get, py_index. fold (zlen l). assert (0 <= zlen l) by (unfold zlen; lia).
  destruct ((k <? - zlen l) || (zlen l <=? k)) eqn:E.
  - replace ((0 <=? k) && (k <? zlen l)) with false by lia.
    replace ((- zlen l <=? k) && (k <? 0)) with false by lia. reflexivity.
  - unfold cread. destruct (Z.ltb_spec k 0).
    + replace ((0 <=? k + zlen l) && (k + zlen l <? zlen l)) with true by lia.
      replace ((0 <=? k) && (k <? zlen l)) with false by lia.
      replace ((- zlen l <=? k) && true) with true by lia. cbn [bind].
      rewrite (nth_error_nth' l 0) by (unfold zlen in *; lia). reflexivity.
    + replace ((0 <=? k) && (k <? zlen l)) with true by lia. cbn [bind].
      rewrite (nth_error_nth' l 0) by (unfold zlen in *; lia). reflexivity.
Qed.

Lemma str_item_ok : forall x i, str_item x i =
  (c <- py_get (sdata (value_of x)) (value_of i) ;; Ok [c]).
Proof.
  intros x i. unfold str_item. destruct (is_constant x && is_constant i); [reflexivity|].
  pose proof (bytes_item_ok (AtRunTime (Some (sdata (value_of x)))) i) as B.
  cbn [value_of bdata] in B. rewrite <- B. clear B.
  unfold bytes_item, slen, blen. cbn [is_constant andb value_of bdata].
  destruct ((value_of i <? _) || _) eqn:E; [reflexivity|].
  destruct (value_of x) as [l|]; cbn [sdata] in *.
  - cbn [str_getitem_int64]. destruct (zlen (codepoints l) =? 1) eqn:L.
    + cbn [bind sdata]. destruct (codepoints l) as [|c [|]] eqn:D; try (unfold zlen in L; cbn [length] in L; lia).
      replace (if value_of i <? 0 then value_of i + zlen [c] else value_of i) with 0; [reflexivity|].
      unfold zlen in *. cbn [length] in *. destruct (value_of i <? 0) eqn:?; lia.
    + destruct (cread _ _); reflexivity.
  - unfold zlen in E. cbn [length] in E. lia.
Qed.
