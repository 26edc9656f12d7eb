(** Model of calling a typed function: how arguments are bound to parameters and how an overload is chosen.
    internals.py, FunctionCallArgMapping.hpp and PyFunctionInstance.cpp for the interpreter,
    expression_conversion_context.py and python_typed_function_wrapper.py for compiled code. *)
From Verif Require Import Base.
Open Scope nat_scope.
Open Scope result_scope.

(** A Python string, as a list of code points. *)
Definition name := list Z.
Fixpoint name_eqb (a b : name) : bool :=
  match a, b with
  | [], [] => true
  | x :: a, y :: b => Z.eqb x y && name_eqb a b
  | _, _ => false
  end.
(** Making a [std::string] of the result of [PyUnicode_AsUTF8] keeps what is before the first NUL.  (The
    encoding itself is injective and left out, as are strings with surrogates, which have none.) *)
Fixpoint c_string (s : name) : name :=
  match s with [] => [] | c :: s => if Z.eqb c 0 then [] else c :: c_string s end.

Section Values.
Variables (V T : Type).

(** ** Definitions *)

(** The parameters of a Python function: [def f(required, optional, *varargs, kwonly, **varkw)], where the
    first [posonly] of the required and optional ones are before a "/". *)
Record signature := {
  s_posonly : nat;
  s_required : list name;
  s_optional : list (name * V);
  s_varargs : option name;
  s_kwonly : list (name * option V);
  s_varkw : option name;
  s_annotation : name -> option T }.

(** What [inspect.getfullargspec] returns; parameters that are positional-only are among [fs_args]. *)
Record full_arg_spec := {
  fs_args : list name;
  fs_defaults : option (list V);
  fs_varargs : option name;
  fs_kwonly : list name;
  fs_varkw : option name;
  fs_annotation : name -> option T }.

Definition getfullargspec (s : signature) : full_arg_spec :=
  {| fs_args := s_required s ++ map fst (s_optional s);
     fs_defaults := match s_optional s with [] => None | _ => Some (map snd (s_optional s)) end;
     fs_varargs := s_varargs s;
     fs_kwonly := map fst (s_kwonly s);
     fs_varkw := s_varkw s;
     fs_annotation := s_annotation s |}.

Inductive kind := Normal | Star | Keywords.
(** [FunctionArg], FunctionType.hpp:379-413 *)
Record param := { p_name : name; p_filter : option T; p_default : option V; p_kind : kind }.

(** [getDefault], internals.py:203-213 *)
Definition get_default (f : full_arg_spec) (idx : nat) : option V :=
  match fs_defaults f with
  | Some ds => if length (fs_args f) - length ds <=? idx then nth_error ds (idx - (length (fs_args f) - length ds)) else None
  | None => None
  end.
Fixpoint enumerate {A} (k : nat) (l : list A) : list (nat * A) :=
  match l with [] => [] | x :: l => (k, x) :: enumerate (S k) l end.
(** [makeFunctionType], internals.py:186-248, the parameters only *)
Definition make_params (f : full_arg_spec) : result (list param) :=
  let normal := map (fun p : nat * name => let (i, a) := p in
                       {| p_name := a; p_filter := fs_annotation f a; p_default := get_default f i; p_kind := Normal |})
                    (enumerate 0 (fs_args f)) in
  let star := match fs_varargs f with
              | Some a => [{| p_name := a; p_filter := fs_annotation f a; p_default := None; p_kind := Star |}]
              | None => [] end in
  let kw := match fs_varkw f with
            | Some a => [{| p_name := a; p_filter := fs_annotation f a; p_default := None; p_kind := Keywords |}]
            | None => [] end in
  match fs_kwonly f with
  | [] => Ok (normal ++ star ++ kw)
  | _ => Err GenericError
  end.

(** ** Binding in the interpreter, FunctionCallArgMapping.hpp *)

(** The members, 485-497: [single] has one entry for each parameter, [None] for a null pointer. *)
Record mapping := {
  single : list (option V);
  star_values : list V;
  kw_values : list (name * V);
  valid : bool;
  current : nat }.
Definition invalid (m : mapping) : mapping :=
  {| single := single m; star_values := star_values m; kw_values := kw_values m; valid := false; current := current m |}.
Fixpoint set_nth {A} (l : list A) (k : nat) (x : A) : list A :=
  match l, k with
  | [], _ => []
  | _ :: l, O => x :: l
  | y :: l, S k => y :: set_nth l k x
  end.

(** constructor, 77-83 *)
Definition new_mapping (ps : list param) : mapping :=
  {| single := repeat None (length ps); star_values := []; kw_values := []; valid := true; current := 0 |}.
(** [pushPositionalArg], 143-168 *)
Definition push_positional (ps : list param) (m : mapping) (a : V) : mapping :=
  if negb (valid m) then m
  else match nth_error ps (current m) with
       | None => invalid m
       | Some p =>
           match p_kind p with
           | Normal => {| single := set_nth (single m) (current m) (Some a); star_values := star_values m;
                          kw_values := kw_values m; valid := true; current := S (current m) |}
           | Star => {| single := single m; star_values := star_values m ++ [a]; kw_values := kw_values m;
                        valid := true; current := current m |}
           | Keywords => invalid m
           end
       end.
(** The loop of [pushKeywordArg], 175-191: where does the argument go? *)
Inductive slot := Slot (k : nat) | Extra | Nowhere.
Fixpoint find_slot (ps : list param) (k : nat) (nm : name) : slot :=
  match ps with
  | [] => Nowhere
  | p :: ps =>
      match p_kind p with
      | Normal => if name_eqb (p_name p) nm then Slot k else find_slot ps (S k) nm
      | Star => find_slot ps (S k) nm
      | Keywords => Extra
      end
  end.
(** [pushKeywordArg], 170-195 *)
Definition push_keyword (ps : list param) (m : mapping) (arg : name * V) : mapping :=
  if negb (valid m) then m
  else match find_slot ps 0 (fst arg) with
       | Slot k =>
           match nth_error (single m) k with
           | Some (Some _) => invalid m
           | _ => {| single := set_nth (single m) k (Some (snd arg)); star_values := star_values m;
                     kw_values := kw_values m; valid := true; current := current m |}
           end
       | Extra => {| single := single m; star_values := star_values m; kw_values := kw_values m ++ [arg];
                     valid := true; current := current m |}
       | Nowhere => invalid m
       end.
(** [finishedPushing], 197-212: the loop stops at a parameter without a value. *)
Fixpoint fill_defaults (ps : list param) (vs : list (option V)) : list (option V) * bool :=
  match ps, vs with
  | p :: ps, v :: vs =>
      match p_kind p, v with
      | Normal, None =>
          match p_default p with
          | Some d => let (vs, ok) := fill_defaults ps vs in (Some d :: vs, ok)
          | None => (v :: vs, false)
          end
      | _, _ => let (vs, ok) := fill_defaults ps vs in (v :: vs, ok)
      end
  | _, _ => (vs, true)
  end.
Definition finished_pushing (ps : list param) (m : mapping) : mapping :=
  if negb (valid m) then m
  else let (vs, ok) := fill_defaults ps (single m) in
       {| single := vs; star_values := star_values m; kw_values := kw_values m; valid := ok; current := current m |}.
(** [pushArguments], 214-238; the dict has no two equal keys, but [c_string] may make them equal. *)
Definition push_arguments (ps : list param) (self : option V) (args : list V) (kwargs : list (name * V)) : mapping :=
  let m := match self with Some s => push_positional ps (new_mapping ps) s | None => new_mapping ps end in
  let m := fold_left (push_positional ps) args m in
  let m := fold_left (push_keyword ps) (map (fun a : name * V => (c_string (fst a), snd a)) kwargs) m in
  finished_pushing ps m.

(** [buildPositionalArgTuple], 296-325; a null pointer is an error. *)
Fixpoint positional_tuple (ps : list param) (vs : list (option V)) (star : list V) : result (list V) :=
  match ps, vs with
  | p :: ps, v :: vs =>
      match p_kind p with
      | Normal => match v with
                  | Some v => rest <- positional_tuple ps vs star ;; Ok (v :: rest)
                  | None => Err GenericError
                  end
      | Star => rest <- positional_tuple ps vs star ;; Ok (star ++ rest)
      | Keywords => positional_tuple ps vs star
      end
  | _, _ => Ok []
  end.
(** [buildKeywordArgTuple], 342-358: a dict, where an equal name replaces the value. *)
Fixpoint dict_set (d : list (name * V)) (nm : name) (v : V) : list (name * V) :=
  match d with
  | [] => [(nm, v)]
  | (k, w) :: d => if name_eqb k nm then (k, v) :: d else (k, w) :: dict_set d nm v
  end.
Definition keyword_dict (ps : list param) (kws : list (name * V)) : list (name * V) :=
  if existsb (fun p => match p_kind p with Keywords => true | _ => false end) ps
  then fold_left (fun d a => dict_set d (fst a) (snd a)) kws []
  else [].

(** ** Conversion and choice of an overload *)

(** [coerceToType], 92-123; [exact t v] says that [v] is an instance of [t] itself, [convert] is
    [copyConstructFromPythonInstance], [None] an exception. *)
Variable level : Type.
Variable exact : T -> V -> bool.
Variable convert : T -> V -> level -> option V.
Definition coerce (t : option T) (l : level) (v : V) : option V :=
  match t with
  | None => Some v
  | Some t => if exact t v then Some v else convert t v l
  end.
Fixpoint coerce_all (t : option T) (l : level) (vs : list V) : option (list V) :=
  match vs with
  | [] => Some []
  | v :: vs => match coerce t l v, coerce_all t l vs with Some v, Some vs => Some (v :: vs) | _, _ => None end
  end.
(** [applyTypeCoercion], 125-141; [None] if the mapping becomes invalid.  (A null pointer does not occur
    after [finished_pushing], and would be dereferenced.) *)
Fixpoint apply_coercion (ps : list param) (l : level) (vs : list (option V)) (star : list V) (kws : list (name * V))
  : option (list (option V) * list V * list (name * V)) :=
  match ps, vs with
  | p :: ps, v :: vs =>
      match p_kind p with
      | Normal =>
          match v with
          | Some v => match coerce (p_filter p) l v, apply_coercion ps l vs star kws with
                      | Some v, Some (vs, star, kws) => Some (Some v :: vs, star, kws)
                      | _, _ => None
                      end
          | None => None
          end
      | Star => match coerce_all (p_filter p) l star, apply_coercion ps l vs star kws with
                | Some star, Some (vs, _, kws) => Some (v :: vs, star, kws)
                | _, _ => None
                end
      | Keywords => match coerce_all (p_filter p) l (map snd kws), apply_coercion ps l vs star kws with
                    | Some ws, Some (vs, star, _) => Some (v :: vs, star, combine (map fst kws) ws)
                    | _, _ => None
                    end
      end
  | _, _ => Some (vs, star, kws)
  end.
(** [definitelyDoesntMatch], 242-277; [could_be] is [pyValCouldBeOfType]. *)
Variable could_be : T -> V -> level -> bool.
Fixpoint doesnt_match (ps : list param) (l : level) (vs : list (option V)) : bool :=
  match ps, vs with
  | p :: ps, v :: vs =>
      match p_kind p, p_filter p, v with
      | Normal, Some t, Some v => negb (could_be t v l) || doesnt_match ps l vs
      | _, _, _ => doesnt_match ps l vs
      end
  | _, _ => false
  end.
(** [tryToCallOverload], PyFunctionInstance.cpp:99-157, up to the call of the Python function with the
    tuple and dict it is given; [None] if the overload does not match. *)
Definition try_overload (ps : list param) (self : option V) (args : list V) (kwargs : list (name * V)) (l : level)
  : option (result (list V * list (name * V))) :=
  let m := push_arguments ps self args kwargs in
  if negb (valid m) then None
  else if doesnt_match ps l (single m) then None
  else match apply_coercion ps l (single m) (star_values m) (kw_values m) with
       | None => None
       | Some (vs, star, kws) => Some (tup <- positional_tuple ps vs star ;; Ok (tup, keyword_dict ps kws))
       end.
(** The loops of [tryToCallAnyOverload], PyFunctionInstance.cpp:67-96: which overload is called with what?
    The function that is called raises no exception here; an exception of its own ends the loops too. *)
Fixpoint first_overload (k : nat) (os : list (list param)) (self : option V) (args : list V) (kwargs : list (name * V)) (l : level)
  : option (nat * result (list V * list (name * V))) :=
  match os with
  | [] => None
  | ps :: os => match try_overload ps self args kwargs l with
                | Some r => Some (k, r)
                | None => first_overload (S k) os self args kwargs l
                end
  end.
Fixpoint call_any (ls : list level) (os : list (list param)) (self : option V) (args : list V) (kwargs : list (name * V))
  : result (nat * (list V * list (name * V))) :=
  match ls with
  | [] => Err TypeError
  | l :: ls => match first_overload 0 os self args kwargs l with
               | Some (k, r) => r <- r ;; Ok (k, r)
               | None => call_any ls os self args kwargs
               end
  end.

(** ** Binding in compiled code, expression_conversion_context.py *)

(** [FunctionArgMapping], 53-59 *)
Inductive arg_mapping := Arg (v : V) | Constant (v : V) | StarArgs (l : list V) | Kwargs (l : list (name * V)).
(** The loop over the positional arguments of [mapFunctionArguments], 850-866; [consumed] are the names. *)
Fixpoint map_positional (ps : list param) (args : list V) (ix : nat) (out : list arg_mapping) (consumed : list name)
  : result (list arg_mapping * list name) :=
  match args with
  | [] => Ok (out, consumed)
  | a :: args =>
      match nth_error ps ix with
      | None => Err TypeError
      | Some p =>
          match p_kind p with
          | Keywords => Err TypeError
          | Star =>
              if length out <=? ix then map_positional ps args ix (out ++ [StarArgs [a]]) consumed
              else match rev out with
                   | StarArgs l :: before => map_positional ps args ix (rev before ++ [StarArgs (l ++ [a])]) consumed
                   | _ => Err GenericError
                   end
          | Normal => map_positional ps args (S ix) (out ++ [Arg a]) (p_name p :: consumed)
          end
      end
  end.
Definition kw_get (d : list (name * V)) (nm : name) : option V := option_map snd (find (fun a => name_eqb (fst a) nm) d).
Definition kw_del (d : list (name * V)) (nm : name) : list (name * V) := filter (fun a => negb (name_eqb (fst a) nm)) d.
(** The loop over the remaining parameters, 868-889 *)
Fixpoint map_rest (ps : list param) (kwargs : list (name * V)) (consumed : list name) (unconsumed : list (name * V))
  : result (list arg_mapping * list (name * V)) :=
  match ps with
  | [] => Ok ([], unconsumed)
  | p :: ps =>
      match p_kind p with
      | Star => ' (out, u) <- map_rest ps kwargs consumed unconsumed ;; Ok (StarArgs [] :: out, u)
      | Keywords =>
          if existsb (fun a : name * V => existsb (name_eqb (fst a)) consumed) unconsumed then Err TypeError
          else ' (out, u) <- map_rest ps kwargs consumed [] ;; Ok (Kwargs unconsumed :: out, u)
      | Normal =>
          if existsb (fun a => name_eqb (fst a) (p_name p)) kwargs then
            match kw_get unconsumed (p_name p) with
            | Some v => ' (out, u) <- map_rest ps kwargs consumed (kw_del unconsumed (p_name p)) ;; Ok (Arg v :: out, u)
            | None => Err KeyError
            end
          else match p_default p with
               | Some d => ' (out, u) <- map_rest ps kwargs consumed unconsumed ;; Ok (Constant d :: out, u)
               | None => Err TypeError
               end
      end
  end.
(** [mapFunctionArguments], 810-894; every message is a [TypeError] of the call.  (The tests of 844-848
    return no other result than the loops.) *)
Definition map_function_arguments (ps : list param) (args : list V) (kwargs : list (name * V)) : result (list arg_mapping) :=
  ' (out, consumed) <- map_positional ps args 0 [] [] ;;
  ' (rest, u) <- map_rest (skipn (length out) ps) kwargs consumed kwargs ;;
  match u with [] => Ok (out ++ rest) | _ => Err TypeError end.

(** The code generated for a call, [generateMethodImplementation], python_typed_function_wrapper.py:867-961
    and [pickSingleOverloadForCall], 753-775: the compiler asks [might] of each overload at each level, and
    generates a test ([accepts]) unless the answer is no; a yes ends the sequence. *)
Inductive answer := Yes | Maybe | No.
Fixpoint compiled_choice_at {O} (might : O -> answer) (accepts : O -> bool) (k : nat) (os : list O)
  (next : result nat) : result nat :=
  match os with
  | [] => next
  | o :: os => match might o with
               | No => compiled_choice_at might accepts (S k) os next
               | Maybe => if accepts o then Ok k else compiled_choice_at might accepts (S k) os next
               | Yes => if accepts o then Ok k else Err TypeError
               end
  end.
Fixpoint compiled_choice {O} (might : level -> O -> answer) (accepts : level -> O -> bool) (ls : list level) (os : list O) : result nat :=
  match ls with
  | [] => Err TypeError
  | l :: ls => compiled_choice_at (might l) (accepts l) 0 os (compiled_choice might accepts ls os)
  end.
Fixpoint single_choice {O} (might : level -> O -> answer) (ls : list level) (os : list O) : option (nat * level) :=
  match ls with
  | [] => None
  | l :: ls =>
      let fix look (k : nat) (rest : list O) : option (option (nat * level)) :=
        match rest with
        | [] => None
        | o :: rest => match might l o with Yes => Some (Some (k, l)) | Maybe => Some None | No => look (S k) rest end
        end in
      match look 0 os with Some r => r | None => single_choice might ls os end
  end.
End Values.
