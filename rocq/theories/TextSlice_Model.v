(** Items and slices of [str] and [bytes] in compiled code, with the folding of the operands
    that the compiler knows.

    An operand of an expression is either known to the compiler (a literal, or computed from
    literals: TypedExpression.isConstant, compiler/typed_expression.py:56-61) or computed at run
    time.  Where the compiler knows enough it evaluates the expression itself, by Python's own
    operation on the Python value.  The answers are given as the bytes or code points of the
    text: the layout of a folded constant is built by the interpreter. *)
From Coq Require Import List ZArith Bool.
From Verif Require Import Base PyList Text_Model.
From Verif Require ListOf_Spec.
Import ListNotations.
Open Scope Z_scope.
Open Scope result_scope.

Inductive operand (A : Type) : Type :=
| Known (a : A)
| AtRunTime (a : A).
Arguments Known {A} a.
Arguments AtRunTime {A} a.

(** What the operand evaluates to *)
Definition value_of {A} (o : operand A) : A := match o with Known a => a | AtRunTime a => a end.

(** TypedExpression.constantValue: the value, or None *)
Definition constant_value {A} (o : operand A) : option A :=
  match o with Known a => Some a | AtRunTime _ => None end.

Definition is_constant {A} (o : operand A) : bool :=
  match o with Known _ => true | AtRunTime _ => false end.

(** [x[lower:upper]] evaluated by Python itself, where None stands for an omitted bound *)
Definition python_slice (x : list Z) (lower upper : option Z) : list Z :=
  ListOf_Spec.items_at x (ListOf_Spec.slice_positions (zlen x) lower upper 1).

(** len(x): StringWrapper.convert_len (string_wrapper.py:663-667), BytesWrapper.convert_len
    (bytes_wrapper.py:1674-1678) *)
Definition len_of {A} (len : A -> Z) (x : operand A) : operand Z :=
  match x with Known a => Known (len a) | AtRunTime a => AtRunTime (len a) end.

(** StringWrapper.convert_getslice (string_wrapper.py:561-598).  A step is an exception of the
    compiler.  Without either bound the method returns the wrapper in place of an expression,
    which fails in the compiler. *)
Definition str_slice (x : operand str) (lower upper : option (operand Z)) (step : option (operand Z))
  : result (list Z) :=
  match step with
  | Some _ => Err GenericError
  | None =>
      match lower, upper with
      | None, None => Err GenericError
      | _, _ =>
          let lower := match lower with None => Known 0 | Some l => l end in
          let upper := match upper with None => len_of slen x | Some u => u end in
          if is_constant x && is_constant lower
          then Ok (python_slice (sdata (value_of x)) (constant_value lower) (constant_value upper))
          else Ok (sdata (getsubstr (value_of x) (value_of lower) (value_of upper)))
      end
  end.

(** BytesWrapper.convert_getslice (bytes_wrapper.py:1134-1185) *)
Definition bytes_slice (x : operand bytes) (lower upper : option (operand Z)) (step : option (operand Z))
  : result (list Z) :=
  match step with
  | Some _ => Err NotImplementedError
  | None =>
      match lower, upper with
      | None, None => Err GenericError
      | _, _ =>
          let lower := match lower with None => Known 0 | Some l => l end in
          let upper := match upper with None => len_of blen x | Some u => u end in
          if is_constant x && is_constant lower && is_constant upper
          then Ok (python_slice (bdata (value_of x)) (constant_value lower) (constant_value upper))
          else Ok (bdata (bytes_getslice (value_of x) (value_of lower) (value_of upper)))
      end
  end.

(** StringType::getitem (StringType.cpp:995-1029): a text of one code point is its own only
    item; otherwise one element of the array is copied. *)
Definition str_getitem_int64 (x : str) (offset : Z) : result str :=
  match x with
  | None => Ok None
  | Some l =>
      if zlen (codepoints l) =? 1 then Ok (Some l)
      else
        let offset := if offset <? 0 then offset + zlen (codepoints l) else offset in
        c <- cread (codepoints l) offset ;;
        Ok (Some (mk_slayout (bytes_per_codepoint l) [c]))
  end.

(** StringWrapper.convert_getitem (string_wrapper.py:600-624): folded, or a check of the bounds
    followed by the runtime function. *)
Definition str_item (x : operand str) (i : operand Z) : result (list Z) :=
  if is_constant x && is_constant i
  then c <- py_get (sdata (value_of x)) (value_of i) ;; Ok [c]
  else
    let len := slen (value_of x) in
    let item := value_of i in
    if (item <? - len) || (len <=? item) then Err IndexError
    else r <- str_getitem_int64 (value_of x) item ;; Ok (sdata r).

(** BytesWrapper.convert_getitem (bytes_wrapper.py:1187-1224) *)
Definition bytes_item (x : operand bytes) (i : operand Z) : result Z :=
  if is_constant x && is_constant i
  then py_get (bdata (value_of x)) (value_of i)
  else
    let len := blen (value_of x) in
    let item := value_of i in
    if (item <? - len) || (len <=? item) then Err IndexError
    else cread (bdata (value_of x)) (if item <? 0 then item + len else item).
