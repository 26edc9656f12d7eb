(** Arrays and matrices (typed_python/array/array.py), and the three
    routines of BLAS that they call (array/fortran.py). *)

From Verif Require Import Base.
Open Scope list_scope.
Open Scope Z_scope.

(** What an operation comes to. [Wild] is an access through a pointer to
    memory that is not an element of the list that the pointer was taken
    from: the code does not check these, so the behaviour is undefined.
    [Reject] is a call of BLAS with an illegal leading dimension or
    increment: BLAS reports an error and computes nothing (the reference
    implementation stops the process). [Raise] is an exception. *)
Inductive res (X : Type) : Type :=
| Done (x : X)
| Raise
| Wild
| Reject.
Arguments Done {X} x.
Arguments Raise {X}.
Arguments Wild {X}.
Arguments Reject {X}.

Definition bind {X Y : Type} (r : res X) (k : X -> res Y) : res Y :=
  match r with
  | Done x => k x
  | Raise => Raise
  | Wild => Wild
  | Reject => Reject
  end.

(** Array_ (array.py:32-36): the list is named by its place in the store,
    since several arrays may share it. *)
Record array : Type := Arr { vals : nat; offset : Z; stride : Z; len : Z }.

(** Matrix_ (array.py:323-329). *)
Record matrix : Type :=
  Mat { mvals : nat; moffset : Z; stride0 : Z; stride1 : Z; rows : Z; cols : Z }.

Section Model.

(** The elements. [zero] and [one] are T() and 1.0; [add] and [mul] are the
    operators + and *. *)
Context {A : Type} (zero one : A) (add mul : A -> A -> A).

(** All lists that were ever made, in the order in which they were made.
    Lists that nothing refers to are kept. *)
Definition store : Type := list (list A).

(** The element at an address of a list, if there is one. *)
Definition cell (s : store) (l : nat) (k : Z) : option A :=
  if k <? 0 then None
  else match nth_error s l with
       | Some xs => nth_error xs (Z.to_nat k)
       | None => None
       end.

Fixpoint replace {X : Type} (xs : list X) (n : nat) (v : X) : list X :=
  match xs, n with
  | [], _ => []
  | _ :: xs, O => v :: xs
  | x :: xs, S n => x :: replace xs n v
  end.

(** p.get() for the pointer p that pointerUnsafe(k) of list l returns
    (PyTupleOrListOfInstance.cpp:654-667, no check). *)
Definition load (s : store) (l : nat) (k : Z) : res A :=
  match cell s l k with
  | Some x => Done x
  | None => Wild
  end.

(** p.set(v). *)
Definition save (s : store) (l : nat) (k : Z) (v : A) : res store :=
  match cell s l k with
  | Some _ => Done (replace s l (replace (nth l s []) (Z.to_nat k) v))
  | None => Wild
  end.

(** The index that ListOf's [] uses: a negative one counts from the end,
    and one out of bounds raises (modelled in ListOf_Model.v in full). *)
Definition listed (s : store) (l : nat) (k : Z) : Z :=
  if k <? 0 then k + Z.of_nat (length (nth l s [])) else k.

Definition list_get (s : store) (l : nat) (k : Z) : res A :=
  match cell s l (listed s l k) with
  | Some x => Done x
  | None => Raise
  end.

Definition list_set (s : store) (l : nat) (k : Z) (v : A) : res store :=
  match cell s l (listed s l k) with
  | Some _ => save s l (listed s l k) v
  | None => Raise
  end.

(** A new list with the given elements. *)
Definition alloc (s : store) (xs : list A) : store * nat :=
  (s ++ [xs], length s).

(* -------------------------------------------------------------- *)
(** * Arrays *)

(** Array_.__init__(vals) (array.py:41-45): the elements are copied. *)
Definition array_of (s : store) (xs : list A) : store * array :=
  let (s, l) := alloc s xs in
  (s, Arr l 0 1 (Z.of_nat (length xs))).

(** The loop of toList (array.py:249-252). *)
Fixpoint read_loop (s : store) (l : nat) (n : nat) (p st : Z) : res (list A) :=
  match n with
  | O => Done []
  | S n =>
      bind (load s l p) (fun x =>
      bind (read_loop s l n (p + st) st) (fun xs => Done (x :: xs)))
  end.

(** Array_.toList (array.py:242-255). *)
Definition to_list (s : store) (a : array) : res (list A) :=
  read_loop s (vals a) (Z.to_nat (len a)) (offset a) (stride a).

(** Array_.clone (array.py:238-240). *)
Definition clone (s : store) (a : array) : res (store * array) :=
  bind (to_list s a) (fun xs => Done (array_of s xs)).

(** Array_.full (array.py:257-265). *)
Definition full (s : store) (count : Z) (v : A) : res (store * array) :=
  if count <? 0 then Raise else Done (array_of s (repeat v (Z.to_nat count))).

(** Array_.__getitem__ (array.py:293-297). *)
Definition item (s : store) (a : array) (i : Z) : res A :=
  if (i <? 0) || (len a <=? i) then Raise
  else list_get s (vals a) (i * stride a + offset a).

(** Array_.__setitem__ (array.py:299-303). *)
Definition set_item (s : store) (a : array) (i : Z) (v : A) : res store :=
  if (i <? 0) || (len a <=? i) then Raise
  else list_set s (vals a) (i * stride a + offset a) v.

(** Array_.get and Array_.set (array.py:287-291). *)
Definition get (s : store) (a : array) (i : Z) : res A :=
  list_get s (vals a) (i * stride a + offset a).

Definition set (s : store) (a : array) (i : Z) (v : A) : res store :=
  list_set s (vals a) (i * stride a + offset a) v.

(** The loop of Array_._inplaceBinop(self, other: Array(T), binaryFunc)
    (array.py:213-217), and the inner loop of the one of Matrix_
    (array.py:473-479). The function is total: operators that raise are not
    modelled. *)
Fixpoint binop_loop (f : A -> A -> A) (n : nat) (i : Z)
    (l : nat) (p st : Z) (l2 : nat) (p2 st2 : Z) (s : store) : res store :=
  match n with
  | O => Done s
  | S n =>
      bind (load s l (p + i * st)) (fun x =>
      bind (load s l2 (p2 + i * st2)) (fun y =>
      bind (save s l (p + i * st) (f x y)) (fun s =>
      binop_loop f n (i + 1) l p st l2 p2 st2 s)))
  end.

Definition binop (f : A -> A -> A) (s : store) (a b : array) : res store :=
  binop_loop f (Z.to_nat (len a)) 0
    (vals a) (offset a) (stride a) (vals b) (offset b) (stride b) s.

(** The loop of Array_._inplaceUnaryOp (array.py:225-227). *)
Fixpoint unary_loop (f : A -> A) (n : nat) (l : nat) (p st : Z) (s : store)
    : res store :=
  match n with
  | O => Done s
  | S n =>
      bind (load s l p) (fun x =>
      bind (save s l p (f x)) (fun s => unary_loop f n l (p + st) st s))
  end.

(** Array_._inplaceUnaryOp (array.py:221-227), and _inplaceBinop(self,
    other: T, binaryFunc) (array.py:229-236) where [f] is fun a =>
    binaryFunc(a, other); there p + i * stride is written where here p is
    advanced. *)
Definition unary (f : A -> A) (s : store) (a : array) : res store :=
  unary_loop f (Z.to_nat (len a)) (vals a) (offset a) (stride a) s.

(** y += a * x with n values of x and y, at the given increments: daxpy of
    BLAS (fortran.py:111-183). A negative increment starts from the other
    end. *)
Fixpoint axpy_loop (n : nat) (a : A) (lx : nat) (px incx : Z)
    (ly : nat) (py incy : Z) (s : store) : res store :=
  match n with
  | O => Done s
  | S n =>
      bind (load s lx px) (fun x =>
      bind (load s ly py) (fun y =>
      bind (save s ly py (add y (mul a x))) (fun s =>
      axpy_loop n a lx (px + incx) incx ly (py + incy) incy s)))
  end.

Definition blas_start (n inc : Z) : Z := if inc <? 0 then (1 - n) * inc else 0.

Definition axpy (n : Z) (a : A) (lx : nat) (px incx : Z)
    (ly : nat) (py incy : Z) (s : store) : res store :=
  axpy_loop (Z.to_nat n) a lx (px + blas_start n incx) incx
    ly (py + blas_start n incy) incy s.

(** _inplaceBinopCheck (array.py:203-206). *)
Definition same_length (a b : array) : bool := len b =? len a.

(** Array_.__iadd__ with another array (array.py:80-90). [flt] says whether
    T is float or Float32. *)
Definition iadd (flt : bool) (s : store) (a b : array) : res store :=
  if same_length a b then
    if flt then
      axpy (len a) one (vals b) (offset b) (stride a)
        (vals a) (offset a) (stride b) s
    else binop add s a b
  else Raise.

(** Array_.__add__ (array.py:74-78). *)
Definition plus (flt : bool) (s : store) (a b : array) : res (store * array) :=
  if same_length a b then
    bind (clone s a) (fun sc =>
    bind (iadd flt (fst sc) (snd sc) b) (fun s => Done (s, snd sc)))
  else Raise.

(** The other operators with another array: __isub__ and so on
    (array.py:98-134), with [f] the operator. *)
Definition iop (f : A -> A -> A) (s : store) (a b : array) : res store :=
  if same_length a b then binop f s a b else Raise.

(** __sub__, __mul__ and so on (array.py:92-129). *)
Definition op (f : A -> A -> A) (s : store) (a b : array) : res (store * array) :=
  if same_length a b then
    bind (clone s a) (fun sc =>
    bind (binop f (fst sc) (snd sc) b) (fun s => Done (s, snd sc)))
  else Raise.

(** abs, __neg__, log and so on (array.py:136-172), and the operators with
    a number on the right. *)
Definition map_array (f : A -> A) (s : store) (a : array) : res (store * array) :=
  bind (clone s a) (fun sc =>
  bind (unary f (fst sc) (snd sc)) (fun s => Done (s, snd sc))).

(** The loop of sum (array.py:267-277). *)
Fixpoint sum_loop (s : store) (l : nat) (n : nat) (p st : Z) (acc : A) : res A :=
  match n with
  | O => Done acc
  | S n => bind (load s l p) (fun x => sum_loop s l n (p + st) st (add acc x))
  end.

Definition sum (s : store) (a : array) : res A :=
  sum_loop s (vals a) (Z.to_nat (len a)) (offset a) (stride a) zero.

(** Array_.__matmul__ with another array (array.py:177-194), and the sums
    of products inside of BLAS. *)
Fixpoint dot_loop (s : store) (l : nat) (p st : Z) (l2 : nat) (p2 st2 : Z)
    (n : nat) (acc : A) : res A :=
  match n with
  | O => Done acc
  | S n =>
      bind (load s l p) (fun x =>
      bind (load s l2 p2) (fun y =>
      dot_loop s l (p + st) st l2 (p2 + st2) st2 n (add acc (mul x y))))
  end.

Definition dot (s : store) (a b : array) : res A :=
  if len b =? len a then
    dot_loop s (vals a) (offset a) (stride a) (vals b) (offset b) (stride b)
      (Z.to_nat (len a)) zero
  else Raise.

(* -------------------------------------------------------------- *)
(** * Matrices *)

(** Matrix_.__init__(vals, offset, stride, shape) (array.py:333-339):
    ListOf(T)(vals) copies, in compiled code (list_of_wrapper.py:401-413)
    and in the interpreter (PyTupleOrListOfInstance.cpp:1169-1182). *)
Definition new_matrix (s : store) (xs : list A) (off st0 st1 r c : Z)
    : store * matrix :=
  let (s, l) := alloc s xs in
  (s, Mat l off st0 st1 r c).

(** The loops of toList (array.py:522-527). *)
Fixpoint mread_loop (s : store) (l : nat) (n0 n1 : nat) (p st0 st1 : Z)
    : res (list A) :=
  match n0 with
  | O => Done []
  | S n0 =>
      bind (read_loop s l n1 p st1) (fun xs =>
      bind (mread_loop s l n0 n1 (p + st0) st0 st1) (fun ys => Done (xs ++ ys)))
  end.

(** Matrix_.toList (array.py:513-531). *)
Definition mto_list (s : store) (m : matrix) : res (list A) :=
  mread_loop s (mvals m) (Z.to_nat (rows m)) (Z.to_nat (cols m))
    (moffset m) (stride0 m) (stride1 m).

(** Matrix_.clone (array.py:533-541). *)
Definition mclone (s : store) (m : matrix) : res (store * matrix) :=
  bind (mto_list s m) (fun xs =>
  Done (new_matrix s xs 0 (cols m) 1 (rows m) (cols m))).

(** Matrix_.isCanonical (array.py:543-545). *)
Definition is_canonical (m : matrix) : bool :=
  (stride0 m =? cols m) && (stride1 m =? 1).

(** Matrix_.getCanonicalForm (array.py:547-550). *)
Definition canonical_form (s : store) (m : matrix) : res (store * matrix) :=
  if is_canonical m then Done (s, m) else mclone s m.

(** Matrix_.full (array.py:552-560). *)
Definition mfull (s : store) (r c : Z) (v : A) : res (store * matrix) :=
  if (r <? 0) || (c <? 0) then Raise
  else Done (new_matrix s (repeat v (Z.to_nat (r * c))) 0 c 1 r c).

(** Matrix_.make (array.py:562-579); the function does not change anything. *)
Definition count (n : nat) : list Z := map Z.of_nat (seq 0 n).

Definition make (s : store) (r c : Z) (f : Z -> Z -> A) : res (store * matrix) :=
  if (r <? 0) || (c <? 0) then Raise
  else
    Done (new_matrix s
      (flat_map (fun i => map (f i) (count (Z.to_nat c))) (count (Z.to_nat r)))
      0 c 1 r c).

(** Matrix_.identity (array.py:595-601). *)
Fixpoint ones_loop (n : nat) (i x : Z) (l : nat) (s : store) : res store :=
  match n with
  | O => Done s
  | S n => bind (list_set s l (x * i + i) one) (ones_loop n (i + 1) x l)
  end.

Definition identity (s : store) (x : Z) : res (store * matrix) :=
  bind (mfull s x x zero) (fun sm =>
  bind (ones_loop (Z.to_nat x) 0 x (mvals (snd sm)) (fst sm)) (fun s =>
  Done (s, snd sm))).

(** Matrix_.__getitem__ (array.py:603-613): a row, which shares the list. *)
Definition row (m : matrix) (i : Z) : res array :=
  if (i <? 0) || (rows m <=? i) then Raise
  else Done (Arr (mvals m) (moffset m + i * stride0 m) (stride1 m) (cols m)).

(** The loop of Matrix_.__setitem__ (array.py:632-635). *)
Fixpoint copy_loop (n : nat) (l : nat) (p st : Z) (l2 : nat) (p2 st2 : Z)
    (s : store) : res store :=
  match n with
  | O => Done s
  | S n =>
      bind (load s l2 p2) (fun x =>
      bind (save s l p x) (fun s =>
      copy_loop n l (p + st) st l2 (p2 + st2) st2 s))
  end.

(** Matrix_.__setitem__ (array.py:615-635). *)
Definition set_row (s : store) (m : matrix) (i : Z) (a : array) : res store :=
  if (i <? 0) || (rows m <=? i) then Raise
  else if len a =? cols m then
    copy_loop (Z.to_nat (cols m))
      (mvals m) (moffset m + stride0 m * i) (stride1 m)
      (vals a) (offset a) (stride a) s
  else Raise.

(** Matrix_.transpose (array.py:637-645): the list is copied by __init__. *)
Definition transpose (s : store) (m : matrix) : store * matrix :=
  new_matrix s (nth (mvals m) s []) (moffset m) (stride1 m) (stride0 m)
    (cols m) (rows m).

(** Matrix_.diagonal (array.py:647-653), which shares the list; min is the
    function of array.py:25-26. *)
Definition diagonal (m : matrix) : array :=
  Arr (mvals m) (moffset m) (stride0 m + stride1 m)
    (if rows m <? cols m then rows m else cols m).

(** Matrix_.get and Matrix_.set (array.py:655-659). *)
Definition mget (s : store) (m : matrix) (i j : Z) : res A :=
  list_get s (mvals m) (i * stride0 m + j * stride1 m + moffset m).

Definition mset (s : store) (m : matrix) (i j : Z) (v : A) : res store :=
  list_set s (mvals m) (i * stride0 m + j * stride1 m + moffset m) v.

(** The loops of Matrix_._inplaceBinop(self, other: Matrix(T), binaryFunc)
    (array.py:472-482). *)
Fixpoint mbinop_loop (f : A -> A -> A) (n0 n1 : nat)
    (l : nat) (p st0 st1 : Z) (l2 : nat) (p2 st20 st21 : Z) (s : store)
    : res store :=
  match n0 with
  | O => Done s
  | S n0 =>
      bind (binop_loop f n1 0 l p st1 l2 p2 st21 s) (fun s =>
      mbinop_loop f n0 n1 l (p + st0) st0 st1 l2 (p2 + st20) st20 st21 s)
  end.

(** Both pointers start at the offset of self (array.py:469-470). *)
Definition mbinop (f : A -> A -> A) (s : store) (m o : matrix) : res store :=
  mbinop_loop f (Z.to_nat (rows m)) (Z.to_nat (cols m))
    (mvals m) (moffset m) (stride0 m) (stride1 m)
    (mvals o) (moffset m) (stride0 o) (stride1 o) s.

(** Matrix_._inplaceBinopCheck (array.py:459-465). *)
Definition same_shape (m o : matrix) : bool :=
  (rows o =? rows m) && (cols o =? cols m).

(** Matrix_.__iadd__ and so on (array.py:358-412), and __add__ and so on. *)
Definition miop (f : A -> A -> A) (s : store) (m o : matrix) : res store :=
  if same_shape m o then mbinop f s m o else Raise.

Definition mop (f : A -> A -> A) (s : store) (m o : matrix) : res (store * matrix) :=
  if same_shape m o then
    bind (mclone s m) (fun sc =>
    bind (mbinop f (fst sc) (snd sc) o) (fun s => Done (s, snd sc)))
  else Raise.

(** Matrix_._inplaceUnaryOp (array.py:502-511), and _inplaceBinop(self,
    other: T, binaryFunc) (array.py:486-500). *)
Fixpoint munary_loop (f : A -> A) (n0 n1 : nat) (l : nat) (p st0 st1 : Z)
    (s : store) : res store :=
  match n0 with
  | O => Done s
  | S n0 =>
      bind (unary_loop f n1 l p st1 s) (fun s =>
      munary_loop f n0 n1 l (p + st0) st0 st1 s)
  end.

Definition munary (f : A -> A) (s : store) (m : matrix) : res store :=
  munary_loop f (Z.to_nat (rows m)) (Z.to_nat (cols m))
    (mvals m) (moffset m) (stride0 m) (stride1 m) s.

(** Matrix_.abs and so on (array.py:414-450), and the operators with a
    number on the right. *)
Definition map_matrix (f : A -> A) (s : store) (m : matrix) : res (store * matrix) :=
  bind (mclone s m) (fun sc =>
  bind (munary f (fst sc) (snd sc)) (fun s => Done (s, snd sc))).

(** Matrix_.flatten (array.py:688-689). *)
Definition flatten (s : store) (m : matrix) : res (store * array) :=
  bind (mto_list s m) (fun xs => Done (array_of s xs)).

(* -------------------------------------------------------------- *)
(** * Products *)

(** dgemm('N', 'N', m, n, k, alpha, A, lda, B, ldb, 0.0, C, ldc) of BLAS
    (fortran.py:186-291): C := alpha * A * B, where the element in row i and
    column j of a matrix is at i + j * ld. The order in which BLAS adds is
    not specified; here it is from the left. *)
Fixpoint gemm_column (i : nat) (k : nat) (alpha : A)
    (la : nat) (pa lda : Z) (lb : nat) (pb : Z) (lc : nat) (pc : Z) (s : store)
    : res store :=
  match i with
  | O => Done s
  | S i =>
      bind (dot_loop s la pa lda lb pb 1 k zero) (fun x =>
      bind (save s lc pc (mul alpha x)) (fun s =>
      gemm_column i k alpha la (pa + 1) lda lb pb lc (pc + 1) s))
  end.

Fixpoint gemm_loop (j : nat) (m k : nat) (alpha : A)
    (la : nat) (pa lda : Z) (lb : nat) (pb ldb : Z) (lc : nat) (pc ldc : Z)
    (s : store) : res store :=
  match j with
  | O => Done s
  | S j =>
      bind (gemm_column m k alpha la pa lda lb pb lc pc s) (fun s =>
      gemm_loop j m k alpha la pa lda lb (pb + ldb) ldb lc (pc + ldc) ldc s)
  end.

Definition gemm (m n k : Z) (alpha : A) (la : nat) (pa lda : Z)
    (lb : nat) (pb ldb : Z) (lc : nat) (pc ldc : Z) (s : store) : res store :=
  if (lda <? Z.max 1 m) || (ldb <? Z.max 1 k) || (ldc <? Z.max 1 m) then Reject
  else
    gemm_loop (Z.to_nat n) (Z.to_nat m) (Z.to_nat k) alpha
      la pa lda lb pb ldb lc pc ldc s.

(** Matrix_.__matmul__ with another matrix (array.py:661-686). *)
Definition matmul (s : store) (m o : matrix) : res (store * matrix) :=
  if cols m =? rows o then
    bind (canonical_form s m) (fun sm =>
    bind (canonical_form (fst sm) o) (fun so =>
    bind (mfull (fst so) (rows (snd sm)) (cols (snd so)) zero) (fun sr =>
    let m := snd sm in
    let o := snd so in
    let r := snd sr in
    bind (gemm (cols o) (rows m) (cols m) one
            (mvals o) (moffset o) (stride0 o)
            (mvals m) (moffset m) (stride0 m)
            (mvals r) (moffset r) (stride0 r) (fst sr)) (fun s =>
    Done (s, r)))))
  else Raise.

(** dgemv(trans, m, n, alpha, A, lda, X, incx, 1.0, Y, incy) of BLAS
    (fortran.py:294-387): y := alpha * A * x + y, or with the transpose of
    A. Each element of y is a sum over a row of A, or over a column of A;
    [across] is the distance between two elements of such a row or column,
    and [down] the distance between two such rows or columns. *)
Fixpoint gemv_loop (n : nat) (k : nat) (alpha : A)
    (la : nat) (pa down across : Z) (lx : nat) (px incx : Z)
    (ly : nat) (py incy : Z) (s : store) : res store :=
  match n with
  | O => Done s
  | S n =>
      bind (dot_loop s la pa across lx px incx k zero) (fun x =>
      bind (load s ly py) (fun y =>
      bind (save s ly py (add (mul alpha x) (mul one y))) (fun s =>
      gemv_loop n k alpha la (pa + down) down across lx px incx
        ly (py + incy) incy s)))
  end.

Definition gemv (trans : bool) (m n : Z) (alpha : A) (la : nat) (pa lda : Z)
    (lx : nat) (px incx : Z) (ly : nat) (py incy : Z) (s : store) : res store :=
  if (lda <? Z.max 1 m) || (incx =? 0) || (incy =? 0) then Reject
  else if (m =? 0) || (n =? 0) then Done s
  else if trans then
    gemv_loop (Z.to_nat n) (Z.to_nat m) alpha la pa lda 1
      lx (px + blas_start m incx) incx ly (py + blas_start n incy) incy s
  else
    gemv_loop (Z.to_nat m) (Z.to_nat n) alpha la pa 1 lda
      lx (px + blas_start n incx) incx ly (py + blas_start m incy) incy s.

(** Matrix_.__matmul__ with an array (array.py:749-773). The matrix is
    passed to BLAS as its list, from the first element on. *)
Definition matvec (s : store) (m : matrix) (a : array) : res (store * array) :=
  bind (canonical_form s m) (fun sm =>
  let m := snd sm in
  let (s, y) := alloc (fst sm) (repeat zero (Z.to_nat (rows m))) in
  if cols m =? len a then
    bind (gemv true (cols m) (rows m) one (mvals m) 0 (stride0 m)
            (vals a) (offset a) (stride a) y 0 1 s) (fun s =>
    Done (array_of s (nth y s [])))
  else Raise).

(** Matrix_.__rmatmul__ (array.py:775-798), which Array_.__matmul__ with a
    matrix calls (array.py:196-197). *)
Definition vecmat (s : store) (a : array) (m : matrix) : res (store * array) :=
  bind (canonical_form s m) (fun sm =>
  let m := snd sm in
  let (s, y) := alloc (fst sm) (repeat zero (Z.to_nat (cols m))) in
  if rows m =? len a then
    bind (gemv false (cols m) (rows m) one (mvals m) 0 (stride0 m)
            (vals a) (offset a) (stride a) y 0 1 s) (fun s =>
    Done (array_of s (nth y s [])))
  else Raise).

(* -------------------------------------------------------------- *)
(** * Programs *)

(** The calls a program can make. Arrays and matrices are named by the
    order in which they were made. Operators are given as functions. *)
Inductive command : Type :=
| CArray (xs : list A)
| CFull (n : Z) (v : A)
| CClone (a : nat)
| CItem (a : nat) (i : Z)
| CSetItem (a : nat) (i : Z) (v : A)
| CGet (a : nat) (i : Z)
| CSet (a : nat) (i : Z) (v : A)
| CPlus (a b : nat)
| CIadd (a b : nat)
| COp (f : A -> A -> A) (a b : nat)
| CIop (f : A -> A -> A) (a b : nat)
| CMap (f : A -> A) (a : nat)
| CImap (f : A -> A) (a : nat)
| CSum (a : nat)
| CDot (a b : nat)
| CMake (r c : Z) (f : Z -> Z -> A)
| CMfull (r c : Z) (v : A)
| CIdentity (n : Z)
| CMclone (m : nat)
| CRow (m : nat) (i : Z)
| CSetRow (m : nat) (i : Z) (a : nat)
| CTranspose (m : nat)
| CDiagonal (m : nat)
| CMget (m : nat) (i j : Z)
| CMset (m : nat) (i j : Z) (v : A)
| CMop (f : A -> A -> A) (m o : nat)
| CMiop (f : A -> A -> A) (m o : nat)
| CMmap (f : A -> A) (m : nat)
| CMimap (f : A -> A) (m : nat)
| CFlatten (m : nat)
| CMatmul (m o : nat)
| CMatvec (m a : nat)
| CVecmat (a m : nat).

Record state : Type := State {
  memory : store;
  arrays : list array;
  matrices : list matrix
}.

(** What a call gives back to the program. *)
Definition with_array (e : state) (r : res (store * array)) : res state :=
  bind r (fun sa => Done (State (fst sa) (arrays e ++ [snd sa]) (matrices e))).

Definition with_matrix (e : state) (r : res (store * matrix)) : res state :=
  bind r (fun sm => Done (State (fst sm) (arrays e) (matrices e ++ [snd sm]))).

Definition with_store (e : state) (r : res store) : res state :=
  bind r (fun s => Done (State s (arrays e) (matrices e))).

Definition with_value (e : state) (r : res A) : res state :=
  bind r (fun _ => Done e).

Definition an_array (e : state) (a : nat) (k : array -> res state) : res state :=
  match nth_error (arrays e) a with
  | Some a => k a
  | None => Raise
  end.

Definition a_matrix (e : state) (m : nat) (k : matrix -> res state) : res state :=
  match nth_error (matrices e) m with
  | Some m => k m
  | None => Raise
  end.

(** One call. The products call BLAS, which is only there for floats. *)
Definition call (flt : bool) (e : state) (c : command) : res state :=
  let s := memory e in
  match c with
  | CArray xs => with_array e (Done (array_of s xs))
  | CFull n v => with_array e (full s n v)
  | CClone a => an_array e a (fun a => with_array e (clone s a))
  | CItem a i => an_array e a (fun a => with_value e (item s a i))
  | CSetItem a i v => an_array e a (fun a => with_store e (set_item s a i v))
  | CGet a i => an_array e a (fun a => with_value e (get s a i))
  | CSet a i v => an_array e a (fun a => with_store e (set s a i v))
  | CPlus a b => an_array e a (fun a => an_array e b (fun b =>
      with_array e (plus flt s a b)))
  | CIadd a b => an_array e a (fun a => an_array e b (fun b =>
      with_store e (iadd flt s a b)))
  | COp f a b => an_array e a (fun a => an_array e b (fun b =>
      with_array e (op f s a b)))
  | CIop f a b => an_array e a (fun a => an_array e b (fun b =>
      with_store e (iop f s a b)))
  | CMap f a => an_array e a (fun a => with_array e (map_array f s a))
  | CImap f a => an_array e a (fun a => with_store e (unary f s a))
  | CSum a => an_array e a (fun a => with_value e (sum s a))
  | CDot a b => an_array e a (fun a => an_array e b (fun b =>
      with_value e (dot s a b)))
  | CMake r c f => with_matrix e (make s r c f)
  | CMfull r c v => with_matrix e (mfull s r c v)
  | CIdentity n => with_matrix e (identity s n)
  | CMclone m => a_matrix e m (fun m => with_matrix e (mclone s m))
  | CRow m i => a_matrix e m (fun m =>
      with_array e (bind (row m i) (fun a => Done (s, a))))
  | CSetRow m i a => a_matrix e m (fun m => an_array e a (fun a =>
      with_store e (set_row s m i a)))
  | CTranspose m => a_matrix e m (fun m => with_matrix e (Done (transpose s m)))
  | CDiagonal m => a_matrix e m (fun m => with_array e (Done (s, diagonal m)))
  | CMget m i j => a_matrix e m (fun m => with_value e (mget s m i j))
  | CMset m i j v => a_matrix e m (fun m => with_store e (mset s m i j v))
  | CMop f m o => a_matrix e m (fun m => a_matrix e o (fun o =>
      with_matrix e (mop f s m o)))
  | CMiop f m o => a_matrix e m (fun m => a_matrix e o (fun o =>
      with_store e (miop f s m o)))
  | CMmap f m => a_matrix e m (fun m => with_matrix e (map_matrix f s m))
  | CMimap f m => a_matrix e m (fun m => with_store e (munary f s m))
  | CFlatten m => a_matrix e m (fun m => with_array e (flatten s m))
  | CMatmul m o => if flt then a_matrix e m (fun m => a_matrix e o (fun o =>
      with_matrix e (matmul s m o))) else Raise
  | CMatvec m a => if flt then a_matrix e m (fun m => an_array e a (fun a =>
      with_array e (matvec s m a))) else Raise
  | CVecmat a m => if flt then an_array e a (fun a => a_matrix e m (fun m =>
      with_array e (vecmat s a m))) else Raise
  end.

(** A program goes on after an exception: it caught it, and what the call
    would have given is not there. *)
Fixpoint calls (flt : bool) (e : state) (cs : list command) : res state :=
  match cs with
  | [] => Done e
  | c :: cs =>
      match call flt e c with
      | Done e => calls flt e cs
      | Raise => calls flt e cs
      | Wild => Wild
      | Reject => Reject
      end
  end.

End Model.

Arguments command A : clear implicits.
Arguments state A : clear implicits.
Arguments store A : clear implicits.
