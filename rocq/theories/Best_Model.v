(** [all], [any], [min] and [max] in compiled code. *)
From Verif Require Import Base.
Open Scope list_scope.
Open Scope result_scope.

(** An iterable is the list of the items that it gives, none of which fails.  A loop that stops before the end leaves the others. *)
Section Truth.
Context {A : Type}.
(** [bool(a)], which may fail *)
Variable truth : A -> result bool.

(** [all], all_any_wrapper.py:19-24: the answer, and what is left of the iterable *)
Fixpoint all_ (iterable : list A) : result bool * list A :=
  match iterable with
  | nil => (Ok true, nil)
  | a :: rest =>
      match truth a with
      | Err e => (Err e, rest)
      | Ok b => if negb b then (Ok false, rest) else all_ rest
      end
  end.
(** [any], all_any_wrapper.py:27-32 *)
Fixpoint any_ (iterable : list A) : result bool * list A :=
  match iterable with
  | nil => (Ok false, nil)
  | a :: rest =>
      match truth a with
      | Err e => (Err e, rest)
      | Ok b => if b then (Ok true, rest) else any_ rest
      end
  end.
(** What calls of them are compiled to: [AllWrapper.convert_call], all_any_wrapper.py:46-47, and [AnyWrapper.convert_call],
    all_any_wrapper.py:61-62 *)
Definition compiled_all := all_.
Definition compiled_any := all_.
End Truth.

(** [min] and [max] differ in the comparison: [e < ret] or [e > ret]. *)
Section Best.
Context {A K : Type}.
Variable better : A -> A -> result bool.

(** The loop of [i_min] and [i_max], min_max_wrapper.py:31-35, 79-83; [first] is whether [ret] is there *)
Fixpoint best_loop (v : list A) (ret : option A) : result (option A) :=
  match v with
  | nil => Ok ret
  | e :: v =>
      b <- match ret with None => Ok true | Some ret => better e ret end ;;
      best_loop v (if b then Some e else ret)
  end.
(** [i_min], [i_max] and those with a default, min_max_wrapper.py:30-49, 78-97 *)
Definition i_best (v : list A) : result A :=
  ret <- best_loop v None ;; match ret with None => Err ValueError | Some ret => Ok ret end.
Definition i_best_default (v : list A) (default : A) : result A :=
  ret <- best_loop v None ;; match ret with None => Ok default | Some ret => Ok ret end.

(** [min] and [max] of two or more arguments, min_max_wrapper.py:219-244: [worse selected arg] is [selected > arg] or [selected < arg].  The
    arguments are converted to a type that covers them all, which keeps their values. *)
Variable worse : A -> A -> result bool.
Fixpoint args_loop (args : list A) (selected : A) : result A :=
  match args with
  | nil => Ok selected
  | a :: args => b <- worse selected a ;; args_loop args (if b then a else selected)
  end.
Definition args_best (args : list A) : result A := match args with nil => Err TypeError | a :: args => args_loop args a end.
End Best.

Section Key.
Context {A K : Type}.
(** The key function, which may fail.  The calls of it are kept in a list, the last in front. *)
Variable key_f : A -> result K.
Variable better : K -> K -> result bool.
Definition call_key (e : A) (calls : list A) : result K * list A := (key_f e, e :: calls).

(** [i_min_key] and [i_max_key], min_max_wrapper.py:52-75, 100-123 *)
Fixpoint key_loop (v : list A) (ret : option (K * A)) (calls : list A) : result (option (K * A)) * list A :=
  match v with
  | nil => (Ok ret, calls)
  | e :: v =>
      let '(elt_key, calls) := call_key e calls in
      match (elt_key <- elt_key ;; b <- match ret with None => Ok true | Some (ret_key, _) => better elt_key ret_key end ;;
             Ok (if b then Some (elt_key, e) else ret)) with
      | Err x => (Err x, calls)
      | Ok ret => key_loop v ret calls
      end
  end.
Definition i_best_key (v : list A) : result A * list A :=
  let '(r, calls) := key_loop v None nil in
  (ret <- r ;; match ret with None => Err ValueError | Some (_, ret) => Ok ret end, calls).
Definition i_best_key_default (v : list A) (default : A) : result A * list A :=
  let '(r, calls) := key_loop v None nil in
  (ret <- r ;; match ret with None => Ok default | Some (_, ret) => Ok ret end, calls).

(** [min] and [max] of two or more arguments with a key, min_max_wrapper.py:173-217: the key of each argument is taken once to know its
    type, and once for its value; what was compiled for the first is run too.  A better argument is written over the last one without
    releasing it, which is not modelled. *)
Variable worse : K -> K -> result bool.
Fixpoint keys_of (args : list A) (calls : list A) : result (list K) * list A :=
  match args with
  | nil => (Ok nil, calls)
  | a :: args =>
      let '(k, calls) := call_key a calls in
      match k with
      | Err x => (Err x, calls)
      | Ok k => let '(ks, calls) := keys_of args calls in (ks <- ks ;; Ok (k :: ks), calls)
      end
  end.
Fixpoint select_loop (args : list A) (keys : list K) (selected : A) (selected_key : K) : result A :=
  match args, keys with
  | a :: args, k :: keys => b <- worse selected_key k ;; if b then select_loop args keys a k else select_loop args keys selected selected_key
  | _, _ => Ok selected
  end.
Definition args_best_key (args : list A) : result A * list A :=
  let '(types, calls) := keys_of args nil in
  match types with
  | Err x => (Err x, calls)
  | Ok _ =>
      let '(keys, calls) := keys_of args calls in
      (keys <- keys ;; match args, keys with a :: args, k :: keys => select_loop args keys a k | _, _ => Err TypeError end, calls)
  end.
End Key.
