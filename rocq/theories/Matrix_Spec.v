(** What it means for arrays and matrices to have given elements. *)

From Verif Require Import Base Matrix_Model.
Open Scope list_scope.
Open Scope Z_scope.

Section Spec.
Context {A : Type} (zero : A) (add mul : A -> A -> A).

(** len(a) == n, and a[i] is [g i] for each index. *)
Definition array_is (s : store A) (a : array) (n : Z) (g : Z -> A) : Prop :=
  len a = n /\ 0 <= n /\ forall i, 0 <= i < n -> item s a i = Done (g i).

(** m[i][j]. *)
Definition entry (s : store A) (m : matrix) (i j : Z) : res A :=
  bind (row m i) (fun a => item s a j).

(** m.shape == (r, c), and m[i][j] is [g i j] for all indices. *)
Definition matrix_is (s : store A) (m : matrix) (r c : Z) (g : Z -> Z -> A) : Prop :=
  rows m = r /\ cols m = c /\ 0 <= r /\ 0 <= c /\
  forall i j, 0 <= i < r -> 0 <= j < c -> entry s m i j = Done (g i j).

(** Each element of the array has a place of the list. *)
Definition inside (s : store A) (a : array) : Prop :=
  0 <= len a /\
  forall i, 0 <= i < len a ->
    0 <= offset a + i * stride a < Z.of_nat (length (nth (vals a) s [])).

Definition minside (s : store A) (m : matrix) : Prop :=
  0 <= rows m /\ 0 <= cols m /\
  forall i j, 0 <= i < rows m -> 0 <= j < cols m ->
    0 <= moffset m + i * stride0 m + j * stride1 m
      < Z.of_nat (length (nth (mvals m) s [])).

(** Different elements of the array have different places. *)
Definition distinct (a : array) : Prop :=
  forall i j, 0 <= i < len a -> 0 <= j < len a -> i <> j ->
    offset a + i * stride a <> offset a + j * stride a.

Definition mdistinct (m : matrix) : Prop :=
  forall i j i' j', 0 <= i < rows m -> 0 <= j < cols m ->
    0 <= i' < rows m -> 0 <= j' < cols m -> (i, j) <> (i', j') ->
    moffset m + i * stride0 m + j * stride1 m
      <> moffset m + i' * stride0 m + j' * stride1 m.

(** An element of one array is at most the element with the same index of
    the other. *)
Definition aligned (a b : array) : Prop :=
  forall i j, 0 <= i < len a -> 0 <= j < len b -> i <> j ->
    ~ (vals a = vals b /\ offset a + i * stride a = offset b + j * stride b).

(** The array has no element in a place. *)
Definition avoids (a : array) (l : nat) (k : Z) : Prop :=
  forall i, 0 <= i < len a -> ~ (l = vals a /\ k = offset a + i * stride a).

Definition mavoids (m : matrix) (l : nat) (k : Z) : Prop :=
  forall i j, 0 <= i < rows m -> 0 <= j < cols m ->
    ~ (l = mvals m /\ k = moffset m + i * stride0 m + j * stride1 m).

(** Nothing that was there has changed. *)
Definition grown (s s' : store A) : Prop := exists t, s' = s ++ t.

(** f 0 + ... + f (n-1), from the left. *)
Definition total (n : Z) (f : Z -> A) : A :=
  fold_left (fun acc k => add acc (f k)) (count (Z.to_nat n)) zero.

(** The array is new: it has a list of its own, and all that was there is as
    it was. *)
Definition newly (s s' : store A) (a : array) : Prop :=
  grown s s' /\ (length s <= vals a < length s')%nat /\ inside s' a /\ distinct a /\
  stride a = 1 /\ offset a = 0.

Definition mnewly (s s' : store A) (m : matrix) : Prop :=
  grown s s' /\ (length s <= mvals m < length s')%nat /\ minside s' m /\ mdistinct m /\
  moffset m = 0 /\ is_canonical m = true.

(** The array has these elements now, and nothing else has changed. *)
Definition changed (s s' : store A) (a : array) (n : Z) (g : Z -> A) : Prop :=
  array_is s' a n g /\ inside s' a /\
  forall l k, avoids a l k -> cell s' l k = cell s l k.

Definition mchanged (s s' : store A) (m : matrix) (r c : Z) (g : Z -> Z -> A) : Prop :=
  matrix_is s' m r c g /\ minside s' m /\
  forall l k, mavoids m l k -> cell s' l k = cell s l k.

(** An element of one matrix is at most the element with the same indices of
    the other. *)
Definition maligned (m o : matrix) : Prop :=
  forall i j i' j', 0 <= i < rows m -> 0 <= j < cols m ->
    0 <= i' < rows o -> 0 <= j' < cols o -> (i, j) <> (i', j') ->
    ~ (mvals m = mvals o /\
       moffset m + i * stride0 m + j * stride1 m
         = moffset o + i' * stride0 o + j' * stride1 o).

(** The array is a row of the matrix, or its diagonal. *)
Definition view_of (m : matrix) (a : array) : Prop :=
  a = diagonal m \/ exists i, row m i = Done a.

(** What is so of every array and matrix that a program gets: each matrix
    has a list of its own, in which its elements have different places; an
    array is a row or the diagonal of a matrix, or has a list that no matrix
    has. *)
Definition sound (e : state A) : Prop :=
  (forall m, In m (matrices e) ->
     minside (memory e) m /\ mdistinct m /\ moffset m = 0 /\
     (mvals m < length (memory e))%nat /\
     0 <= stride0 m /\ 0 <= stride1 m /\ 0 < stride0 m + stride1 m /\
     (0 < rows m -> 0 < stride1 m) /\ (0 < cols m -> 0 < stride0 m)) /\
  (forall m o, In m (matrices e) -> In o (matrices e) ->
     mvals m = mvals o -> m = o) /\
  (forall a, In a (arrays e) ->
     (exists m, In m (matrices e) /\ view_of m a) \/
     (inside (memory e) a /\ offset a = 0 /\ stride a = 1 /\
      (vals a < length (memory e))%nat /\
      forall m, In m (matrices e) -> mvals m <> vals a)).

(** The call does not add an array of floats to one with other distances
    between its elements. *)
Definition fair (flt : bool) (e : state A) (c : command A) : Prop :=
  flt = true ->
  match c with
  | CPlus _ b =>
      forall y, nth_error (arrays e) b = Some y -> stride y = 1
  | CIadd a b =>
      forall x y, nth_error (arrays e) a = Some x ->
        nth_error (arrays e) b = Some y -> stride x = stride y
  | _ => True
  end.

(** What a program may have after any such calls. A call that raises leaves
    everything as it is. *)
Inductive reached (zero one : A) (add mul : A -> A -> A) (flt : bool) : state A -> Prop :=
| reached_start : reached zero one add mul flt (State [] [] [])
| reached_call : forall e c e',
    reached zero one add mul flt e -> fair flt e c ->
    call zero one add mul flt e c = Done e' ->
    reached zero one add mul flt e'.

(** What is asked of the numbers. *)
Definition numbers (zero one : A) (add mul : A -> A -> A) : Prop :=
  (forall x, mul one x = x) /\ (forall x y, mul x y = mul y x) /\
  (forall x, add x zero = x).

End Spec.
