(** Python's calling convention (The Python Language Reference, 6.3.4), and what it means that an overload
    accepts a call. *)
From Verif Require Import Base Call_Model.
Open Scope nat_scope.

Section Values.
Context {V T : Type}.
Notation sig := (signature V T).

(** The parameters that positional arguments may fill, with their defaults. *)
Definition parameters (s : sig) : list (name * option V) :=
  map (fun n => (n, None)) (s_required _ _ s) ++ map (fun p => (fst p, Some (snd p))) (s_optional _ _ s).

(** What the body of the function finds: the values of [parameters], of [*args], of the keyword-only
    parameters and of [**kwargs]. *)
Record binding := { b_values : list V; b_star : list V; b_kwonly : list V; b_extra : list (name * V) }.

(** The keyword argument of this name *)
Fixpoint keyword (kw : list (name * V)) (n : name) : option V :=
  match kw with
  | [] => None
  | (m, v) :: kw => if name_eqb m n then Some v else keyword kw n
  end.
(** The parameters a keyword may fill *)
Definition keyword_names (s : sig) : list name :=
  skipn (s_posonly _ _ s) (map fst (parameters s)) ++ map fst (s_kwonly _ _ s).

(** The value of the parameter [n] at position [i] with default [d]: the positional argument, or the keyword
    argument, or the default. *)
Definition argument (s : sig) (pos : list V) (kw : list (name * V)) (i : nat) (n : name) (d : option V) : option V :=
  match nth_error pos i with
  | Some v => Some v
  | None => match (if s_posonly _ _ s <=? i then keyword kw n else None) with
            | Some v => Some v
            | None => d
            end
  end.

(** The call [f( *pos, **kw)] succeeds, and binds [b]. *)
Record python_binds (s : sig) (pos : list V) (kw : list (name * V)) (b : binding) : Prop := {
  not_too_many : s_varargs _ _ s = None -> length pos <= length (parameters s);
  no_argument_twice : forall i n, s_posonly _ _ s <= i -> i < length pos ->
    nth_error (map fst (parameters s)) i = Some n -> keyword kw n = None;
  no_unknown_keyword : s_varkw _ _ s = None -> forall n v, In (n, v) kw -> In n (keyword_names s);
  bound_values : length (b_values b) = length (parameters s) /\
    forall i n d, nth_error (parameters s) i = Some (n, d) ->
      nth_error (b_values b) i = argument s pos kw i n d;
  bound_star : b_star b = skipn (length (parameters s)) pos;
  bound_kwonly : length (b_kwonly b) = length (s_kwonly _ _ s) /\
    forall i n d, nth_error (s_kwonly _ _ s) i = Some (n, d) ->
      nth_error (b_kwonly b) i = match keyword kw n with Some v => Some v | None => d end;
  bound_extra : b_extra b = filter (fun a => negb (existsb (name_eqb (fst a)) (keyword_names s))) kw }.

(** A definition Python accepts *)
Definition well_formed (s : sig) : Prop :=
  NoDup (map fst (parameters s) ++ map fst (s_kwonly _ _ s)) /\ s_posonly _ _ s <= length (parameters s).
(** Keyword arguments Python can pass: a dict, so no name twice *)
Definition distinct_keywords (kw : list (name * V)) : Prop := NoDup (map fst kw).

(** The functions whose calls are right: no "/" and no keyword-only parameters *)
Definition plain (s : sig) : Prop := s_posonly _ _ s = 0 /\ s_kwonly _ _ s = [].
(** No NUL character in the name of a keyword *)
Definition plain_keywords (kw : list (name * V)) : Prop := forall n v, In (n, v) kw -> ~ In 0%Z n.

(** What [FunctionArgMapping]s of compiled code say about the values of the parameters *)
Fixpoint mapped (l : list (arg_mapping V)) : binding :=
  match l with
  | [] => {| b_values := []; b_star := []; b_kwonly := []; b_extra := [] |}
  | a :: l =>
      let b := mapped l in
      match a with
      | Arg _ v | Constant _ v => {| b_values := v :: b_values b; b_star := b_star b; b_kwonly := b_kwonly b; b_extra := b_extra b |}
      | StarArgs _ vs => {| b_values := b_values b; b_star := vs ++ b_star b; b_kwonly := b_kwonly b; b_extra := b_extra b |}
      | Kwargs _ kws => {| b_values := b_values b; b_star := b_star b; b_kwonly := b_kwonly b; b_extra := kws ++ b_extra b |}
      end
  end.

(** ** Overloads *)

Section Conversion.
Context {level : Type} (exact : T -> V -> bool) (convert : T -> V -> level -> option V).

(** [v'] is what a parameter with annotation [t] gets for the argument [v] at conversion level [l]. *)
Definition converts (t : option T) (l : level) (v v' : V) : Prop :=
  match t with
  | None => v' = v
  | Some t => if exact t v then v' = v else convert t v l = Some v'
  end.
Definition annotation_of (s : sig) (n : option name) : option T :=
  match n with Some n => s_annotation _ _ s n | None => None end.
(** Every bound value is converted to the type of its parameter. *)
Record converted (s : sig) (l : level) (b b' : binding) : Prop := {
  converted_values : Forall2 (fun n vs => converts (s_annotation _ _ s n) l (fst vs) (snd vs))
    (map fst (parameters s)) (combine (b_values b) (b_values b')) /\ length (b_values b') = length (b_values b);
  converted_star : Forall2 (converts (annotation_of s (s_varargs _ _ s)) l) (b_star b) (b_star b');
  converted_extra : Forall2 (fun a a' => fst a' = fst a /\ converts (annotation_of s (s_varkw _ _ s)) l (snd a) (snd a'))
    (b_extra b) (b_extra b');
  converted_kwonly : b_kwonly b' = b_kwonly b }.
(** The call [f( *pos, **kw)] of an overload with the signature [s] succeeds at level [l], and its body finds [b]. *)
Definition accepts (s : sig) (pos : list V) (kw : list (name * V)) (l : level) (b : binding) : Prop :=
  exists b0, python_binds s pos kw b0 /\ converted s l b0 b.

(** [(i, k)] is the first pair of a level (by its index in [ls]) and an overload (by its index in [os]) that
    accepts, levels first. *)
Definition first_accepting (ls : list level) (os : list sig) (pos : list V) (kw : list (name * V)) (i k : nat) (b : binding) : Prop :=
  (exists l s, nth_error ls i = Some l /\ nth_error os k = Some s /\ accepts s pos kw l b) /\
  (forall j m l s b', nth_error ls j = Some l -> nth_error os m = Some s -> accepts s pos kw l b' ->
     i < j \/ i = j /\ k <= m).

(** [pyValCouldBeOfType] says no only if no conversion exists. *)
Definition could_be_sound (could_be : T -> V -> level -> bool) : Prop :=
  forall t v l v', converts (Some t) l v v' -> could_be t v l = true.
End Conversion.
End Values.
