(** Model of the instances of classes: how data members are laid out in memory, how flags say which of them are
    initialised, and what reading, setting, deleting, copying, assigning and sending them does, in the interpreter
    (HeldClassType.hpp, HeldClassType.cpp, PyClassInstance.cpp) and in compiled code (class_wrapper.py,
    held_class_wrapper.py).

    A value of a data member is the bytes that it takes in the instance.  Reference counts are not modelled, but
    every instance carries a note of which members hold a constructed value: constructing a value over another one
    (which leaks it) and reading, assigning or destroying one that is not there are [UndefinedBehaviour].  The flags
    of the instance are separate from this note. *)
From Verif Require Import Base Class_Model.
From Coq Require Import String.
Open Scope string_scope.
Open Scope list_scope.

Definition value := list Z.

(** Memory of an instance without its header, and the note. *)
Record object := Object { o_bytes : list Z; o_built : list bool }.

(** What is done to an instance succeeds, has no such attribute, or fails otherwise. *)
Inductive outcome (A : Type) :=
| Gives (a : A)
| AttributeError
| Raises (e : exn).
Arguments Gives {A} a.
Arguments AttributeError {A}.
Arguments Raises {A} e.
Definition andthen {A B} (r : outcome A) (f : A -> outcome B) : outcome B :=
  match r with Gives a => f a | AttributeError => AttributeError | Raises e => Raises e end.
Notation "x <~ r ; k" := (andthen r (fun x => k)) (at level 61, r at next level, right associativity).

(** What the types of members do.  [default_of]: the default value given in [Member], HeldClassType.hpp:694-700 and
    internals.py:88; [wants]: [wantsToDefaultConstruct], HeldClassType.hpp:645-648; [fresh]: the value that the
    type's constructor makes; [pod]: [is_pod]; [same]: the type's own comparison. *)
Record types := Types {
  default_of : member -> option value;
  wants : member -> bool;
  fresh : member -> outcome value;
  pod : member -> bool;
  same : member -> value -> value -> bool
}.

(** ** Layout *)

Definition size_of (m : member) : nat := Z.to_nat (m_size m).
Fixpoint sizes (ms : list member) : nat := match ms with nil => O | m :: r => (size_of m + sizes r)%nat end.

(** [updateBytesOfInitBits], HeldClassType.cpp:53-67. *)
Definition init_bytes (ms : list member) : nat :=
  if forallb m_nonempty ms then O else Nat.div (List.length ms + 7) 8.

(** [m_byte_offsets] and [m_size], [_updateAfterForwardTypesChanged], 69-88. *)
Definition offset (ms : list member) (k : nat) : nat := (init_bytes ms + sizes (firstn k ms))%nat.
Definition bytecount (ms : list member) : nat := (init_bytes ms + sizes ms)%nat.

(** ** Memory *)

Definition read_bytes (b : list Z) (off n : nat) : list Z := firstn n (skipn off b).
Definition write_bytes (b : list Z) (off : nat) (v : list Z) : list Z :=
  firstn off b ++ v ++ skipn (off + List.length v) b.
Definition is_built (o : object) (k : nat) : bool := nth k (o_built o) false.
Definition note (o : object) (k : nat) (x : bool) : object :=
  Object (o_bytes o) (firstn k (o_built o) ++ x :: skipn (S k) (o_built o)).

(** ** Flags of the interpreter *)

(** [fieldGuaranteedInitialized], HeldClassType.hpp:658-660. *)
Definition guaranteed (ms : list member) (k : nat) : bool :=
  match nth_error ms k with Some m => m_nonempty m | None => false end.

(** [checkInitializationFlag], [setInitializationFlag] and [clearInitializationFlag], HeldClassType.cpp:365-395. *)
Definition mask_of (k : nat) : Z := Z.shiftl 1 (Z.of_nat (Nat.modulo k 8)).
Definition check_flag (ms : list member) (o : object) (k : nat) : bool :=
  if guaranteed ms k then true
  else negb (Z.eqb (Z.land (nth (Nat.div k 8) (o_bytes o) 0%Z) (mask_of k)) 0).
Definition set_flag (ms : list member) (o : object) (k : nat) : object :=
  if guaranteed ms k then o
  else Object (write_bytes (o_bytes o) (Nat.div k 8) [Z.lor (nth (Nat.div k 8) (o_bytes o) 0%Z) (mask_of k)]) (o_built o).
Definition clear_flag (ms : list member) (o : object) (k : nat) : object :=
  if guaranteed ms k then o
  else Object (write_bytes (o_bytes o) (Nat.div k 8) [Z.land (nth (Nat.div k 8) (o_bytes o) 0%Z) (Z.lnot (mask_of k))]) (o_built o).

(** ** Values at an address *)

Definition read_slot (off size k : nat) (o : object) : outcome value :=
  if is_built o k then Gives (read_bytes (o_bytes o) off size) else Raises UndefinedBehaviour.
Definition store (off : nat) (v : value) (o : object) : object := Object (write_bytes (o_bytes o) off v) (o_built o).
(** [copy_constructor] of a member's type. *)
Definition construct (off k : nat) (v : value) (o : object) : outcome object :=
  if is_built o k then Raises UndefinedBehaviour else Gives (note (store off v o) k true).
(** [assign]. *)
Definition assign_slot (off k : nat) (v : value) (o : object) : outcome object :=
  if is_built o k then Gives (store off v o) else Raises UndefinedBehaviour.
(** [destroy]. *)
Definition destroy_slot (k : nat) (o : object) : outcome object :=
  if is_built o k then Gives (note o k false) else Raises UndefinedBehaviour.

(** A loop over the members. *)
Fixpoint each (ks : list nat) (f : nat -> object -> outcome object) (o : object) : outcome object :=
  match ks with
  | nil => Gives o
  | k :: r => o' <~ f k o ; each r f o'
  end.
Definition indices (ms : list member) : list nat := seq 0 (List.length ms).
Definition with_member {A} (ms : list member) (k : nat) (f : member -> outcome A) : outcome A :=
  match nth_error ms k with Some m => f m | None => Raises UndefinedBehaviour end.

(** ** The interpreter *)

(** [HeldClass::constructor], HeldClassType.cpp:269-288, into memory with any content. *)
Definition unmade (ms : list member) (memory : list Z) : object := Object memory (repeat false (List.length ms)).
Definition make_member (T : types) (ms : list member) (k : nat) (o : object) : outcome object :=
  with_member ms k (fun m =>
    match default_of T m with
    | Some v => o' <~ construct (offset ms k) k v o ; Gives (set_flag ms o' k)
    | None =>
        if wants T m || m_nonempty m then
          v <~ fresh T m ; o' <~ construct (offset ms k) k v o ; Gives (set_flag ms o' k)
        else Gives (clear_flag ms o k)
    end).
Definition make_instance (T : types) (ms : list member) (memory : list Z) : outcome object :=
  each (indices ms) (make_member T ms) (unmade ms memory).

(** [setAttribute] and [delAttribute], 243-267. *)
Definition set_at (ms : list member) (k : nat) (v : value) (o : object) : outcome object :=
  if check_flag ms o k then assign_slot (offset ms k) k v o
  else o' <~ construct (offset ms k) k v o ; Gives (set_flag ms o' k).
Definition del_at (ms : list member) (k : nat) (o : object) : outcome object :=
  if check_flag ms o k then o' <~ destroy_slot k o ; Gives (clear_flag ms o' k) else Gives o.

(** [tpSetattrGeneric], PyClassInstance.cpp:136-241, for a class without [__setattr__] and [__delattr__]; the value
    has the type of the member already.  [tpGetattrGeneric], 560-575. *)
Definition set_name (ms : list member) (n : string) (v : value) (o : object) : outcome object :=
  match member_index ms n with None => AttributeError | Some k => set_at ms k v o end.
Definition del_name (ms : list member) (n : string) (o : object) : outcome object :=
  match member_index ms n with
  | None => AttributeError
  | Some k => if guaranteed ms k then AttributeError
              else if negb (check_flag ms o k) then AttributeError else del_at ms k o
  end.
Definition get_name (ms : list member) (n : string) (o : object) : outcome value :=
  match member_index ms n with
  | None => AttributeError
  | Some k => if negb (check_flag ms o k) then AttributeError
              else with_member ms k (fun m => read_slot (offset ms k) (size_of m) k o)
  end.

(** [initializeClassWithDefaultArguments], PyClassInstance.cpp:107-130. *)
Fixpoint set_names (ms : list member) (kwargs : list (string * value)) (o : object) : outcome object :=
  match kwargs with
  | nil => Gives o
  | (n, v) :: r => o' <~ set_name ms n v o ; set_names ms r o'
  end.

(** [destroy], HeldClassType.cpp:326-333, for a class without [__del__]. *)
Definition destroy (ms : list member) (o : object) : outcome object :=
  each (rev (indices ms)) (fun k o => if check_flag ms o k then destroy_slot k o else Gives o) o.

(** [copy_constructor], 336-346. *)
Definition copy_member (ms : list member) (src : object) (k : nat) (o : object) : outcome object :=
  if check_flag ms src k then
    with_member ms k (fun m =>
      v <~ read_slot (offset ms k) (size_of m) k src ; o' <~ construct (offset ms k) k v o ; Gives (set_flag ms o' k))
  else Gives (clear_flag ms o k).
Definition copy_construct (ms : list member) (src : object) (memory : list Z) : outcome object :=
  each (rev (indices ms)) (copy_member ms src) (unmade ms memory).

(** [assign], 348-363. *)
Definition assign_member (ms : list member) (src : object) (k : nat) (o : object) : outcome object :=
  with_member ms k (fun m =>
    match check_flag ms o k, check_flag ms src k with
    | true, true => v <~ read_slot (offset ms k) (size_of m) k src ; assign_slot (offset ms k) k v o
    | true, false => o' <~ destroy_slot k o ; Gives (clear_flag ms o' k)
    | false, true => v <~ read_slot (offset ms k) (size_of m) k src ; o' <~ construct (offset ms k) k v o ; Gives (clear_flag ms o' k)
    | false, false => Gives o
    end).
Definition assign (ms : list member) (src o : object) : outcome object :=
  each (rev (indices ms)) (assign_member ms src) o.

(** [deepcopyConcrete], HeldClassType.hpp:564-580, of values whose deep copies have the same bytes. *)
Definition deepcopy_member (ms : list member) (src : object) (k : nat) (o : object) : outcome object :=
  if check_flag ms src k then
    with_member ms k (fun m =>
      v <~ read_slot (offset ms k) (size_of m) k src ; o' <~ construct (offset ms k) k v o ; Gives (set_flag ms o' k))
  else Gives o.
Definition deepcopy (ms : list member) (src : object) (memory : list Z) : outcome object :=
  each (indices ms) (deepcopy_member ms src) (unmade ms memory).

(** [cmp] with [Py_EQ], HeldClassType.cpp:124-143. *)
Fixpoint equal_from (T : types) (ms : list member) (ks : list nat) (a b : object) : outcome bool :=
  match ks with
  | nil => Gives true
  | k :: r =>
      let x := check_flag ms a k in
      let y := check_flag ms b k in
      if negb (Bool.eqb x y) then Gives false
      else if x && y then
        with_member ms k (fun m =>
          v <~ read_slot (offset ms k) (size_of m) k a ; u <~ read_slot (offset ms k) (size_of m) k b ;
          if same T m v u then equal_from T ms r a b else Gives false)
      else equal_from T ms r a b
  end.
Definition equal (T : types) (ms : list member) (a b : object) : outcome bool := equal_from T ms (indices ms) a b.

(** [serialize], HeldClassType.hpp:608-621: the fields of the message.  [deserialize], 592-606, of the fields of any
    message whose values can be read; a field is a number and the value that was read for it. *)
Fixpoint serialize_from (ms : list member) (ks : list nat) (o : object) : outcome (list (nat * value)) :=
  match ks with
  | nil => Gives nil
  | k :: r =>
      if check_flag ms o k then
        with_member ms k (fun m => v <~ read_slot (offset ms k) (size_of m) k o ; fs <~ serialize_from ms r o ; Gives ((k, v) :: fs))
      else serialize_from ms r o
  end.
Definition serialize (ms : list member) (o : object) : outcome (list (nat * value)) := serialize_from ms (indices ms) o.
Fixpoint read_fields (ms : list member) (fields : list (nat * value)) (o : object) : outcome object :=
  match fields with
  | nil => Gives o
  | (k, v) :: r =>
      if Nat.ltb k (List.length ms) then
        o' <~ construct (offset ms k) k v o ; read_fields ms r (set_flag ms o' k)
      else read_fields ms r o
  end.
Definition deserialize (ms : list member) (fields : list (nat * value)) (memory : list Z) : outcome object :=
  o <~ each (indices ms) (fun k o => Gives (clear_flag ms o k)) (unmade ms memory) ; read_fields ms fields o.

(** ** Compiled code *)

(** Compiled code sees an instance as one of class [A], with members [own] and [final] if [A] is final; the instance
    itself has members [ms], which its vtable tells about.  [bytesOfInitBitsForInstance] and [memberPtr],
    class_wrapper.py:443-458, 551-562. *)
Record view := View { own : list member; final : bool }.
Definition compiled_offset (A : view) (ms : list member) (k : nat) : nat :=
  ((if final A then init_bytes (own A) else init_bytes ms) + sizes (firstn k (own A)))%nat.

(** [isInitializedNativeExpr], [setIsInitializedExpr] and [clearIsInitializedExpr], 564-612.  The [Member] that
    [fieldGuaranteedInitialized], 211-225, looks at is taken to be that of the data member. *)
Definition compiled_check (A : view) (o : object) (k : nat) : bool :=
  if guaranteed (own A) k then true
  else negb (Z.eqb (Z.land (Z.shiftr (nth (Nat.div k 8) (o_bytes o) 0%Z) (Z.of_nat (Nat.modulo k 8))) 1) 0).
Definition compiled_mark (A : view) (o : object) (k : nat) : object :=
  if guaranteed (own A) k then o
  else Object (write_bytes (o_bytes o) (Nat.div k 8) [Z.lor (nth (Nat.div k 8) (o_bytes o) 0%Z) (mask_of k)]) (o_built o).
Definition compiled_clear (A : view) (o : object) (k : nat) : object :=
  if guaranteed (own A) k then o
  else Object (write_bytes (o_bytes o) (Nat.div k 8) [Z.land (nth (Nat.div k 8) (o_bytes o) 0%Z) (255 - mask_of k)]) (o_built o).

(** [convert_attribute], 666-684, of a name that is a data member. *)
Definition compiled_get (A : view) (ms : list member) (n : string) (o : object) : outcome value :=
  match member_index (own A) n with
  | None => AttributeError
  | Some k => if negb (compiled_check A o k) then AttributeError
              else with_member (own A) k (fun m => read_slot (compiled_offset A ms k) (size_of m) k o)
  end.
(** [convert_hasattr], 197-209. *)
Definition compiled_has (A : view) (n : string) (o : object) : outcome bool :=
  match member_index (own A) n with None => AttributeError | Some k => Gives (compiled_check A o k) end.
(** [convert_set_attribute], 1320-1390.  A value without a destructor is written whether or not one is there. *)
Definition compiled_set (T : types) (A : view) (ms : list member) (n : string) (v : value) (o : object) : outcome object :=
  match member_index (own A) n with
  | None => AttributeError
  | Some k =>
      with_member (own A) k (fun m =>
        if pod T m then Gives (compiled_mark A (note (store (compiled_offset A ms k) v o) k true) k)
        else if compiled_check A o k then assign_slot (compiled_offset A ms k) k v o
        else o' <~ construct (compiled_offset A ms k) k v o ; Gives (compiled_mark A o' k))
  end.
Definition compiled_del (T : types) (A : view) (n : string) (o : object) : outcome object :=
  match member_index (own A) n with
  | None => AttributeError
  | Some k =>
      with_member (own A) k (fun m =>
        if guaranteed (own A) k then AttributeError
        else if compiled_check A o k then
          o' <~ (if pod T m then Gives (note o k false) else destroy_slot k o) ; Gives (compiled_clear A o' k)
        else AttributeError)
  end.

(** [generateConstructor], class_wrapper.py:1438-1486 and held_class_wrapper.py:194-253, of a class without
    [__init__].  All flags are cleared first. *)
Definition zero_flags (ms : list member) (o : object) : object :=
  Object (write_bytes (o_bytes o) 0 (repeat 0%Z (init_bytes ms))) (o_built o).
Definition compiled_make_member (T : types) (ms : list member) (k : nat) (o : object) : outcome object :=
  with_member ms k (fun m =>
    if wants T m || m_nonempty m then
      v <~ (match default_of T m with Some v => Gives v | None => fresh T m end) ;
      o' <~ construct (offset ms k) k v o ; Gives (compiled_mark (View ms true) o' k)
    else Gives o).
Definition compiled_make (T : types) (ms : list member) (memory : list Z) : outcome object :=
  each (indices ms) (compiled_make_member T ms) (zero_flags ms (unmade ms memory)).
Fixpoint compiled_set_names (T : types) (ms : list member) (kwargs : list (string * value)) (o : object) : outcome object :=
  match kwargs with
  | nil => Gives o
  | (n, v) :: r => o' <~ compiled_set T (View ms true) ms n v o ; compiled_set_names T ms r o'
  end.

(** [convert_assign] and [convert_copy_initialize] of a held class, held_class_wrapper.py:121-151.  Where the target
    has no value and the source has one, the expression that would set the flag is built but not emitted, 132. *)
Definition compiled_assign_member (ms : list member) (src : object) (k : nat) (o : object) : outcome object :=
  let A := View ms true in
  with_member ms k (fun m =>
    match compiled_check A src k, compiled_check A o k with
    | true, true => v <~ read_slot (offset ms k) (size_of m) k src ; assign_slot (offset ms k) k v o
    | true, false => v <~ read_slot (offset ms k) (size_of m) k src ; construct (offset ms k) k v o
    | false, true => o' <~ destroy_slot k o ; Gives (compiled_clear A o' k)
    | false, false => Gives o
    end).
Definition compiled_assign (ms : list member) (src o : object) : outcome object :=
  each (indices ms) (compiled_assign_member ms src) o.
Definition compiled_copy_member (ms : list member) (src : object) (k : nat) (o : object) : outcome object :=
  let A := View ms true in
  if compiled_check A src k then
    with_member ms k (fun m =>
      v <~ read_slot (offset ms k) (size_of m) k src ; o' <~ construct (offset ms k) k v o ; Gives (compiled_mark A o' k))
  else Gives (compiled_clear A o k).
Definition compiled_copy (ms : list member) (src : object) (memory : list Z) : outcome object :=
  each (indices ms) (compiled_copy_member ms src) (unmade ms memory).

(** [convert_default_initialize] of a held class, 153-169. *)
Definition compiled_default_member (T : types) (ms : list member) (k : nat) (o : object) : outcome object :=
  let A := View ms true in
  with_member ms k (fun m =>
    if wants T m then
      v <~ (match default_of T m with Some v => Gives v | None => fresh T m end) ;
      o' <~ construct (offset ms k) k v o ; Gives (compiled_mark A o' k)
    else Gives (compiled_clear A o k)).
Definition compiled_default (T : types) (ms : list member) (memory : list Z) : outcome object :=
  each (indices ms) (compiled_default_member T ms) (unmade ms memory).

(** ** Programs *)

(** What a program does with the instances it has.  [memory] is what happens to be in the memory that is allocated.
    [compiled] says whether compiled code does it; [A] is the class that compiled code takes the instance for. *)
Inductive op :=
| New (compiled : bool) (c : nat) (memory : list Z) (kwargs : list (string * value))
| Get (i : nat) (n : string)
| Set_ (i : nat) (n : string) (v : value)
| Del (i : nat) (n : string)
| CompiledGet (A i : nat) (n : string)
| CompiledHas (A i : nat) (n : string)
| CompiledSet (A i : nat) (n : string) (v : value)
| CompiledDel (A i : nat) (n : string)
| Copy (compiled : bool) (i : nat) (memory : list Z)
| DeepCopy (i : nat) (memory : list Z)
| Assign (compiled : bool) (i j : nat)
| Equal (i j : nat)
| Send (i : nat) (memory : list Z)
| Drop (i : nat).

Inductive answer := Nothing | Value (v : value) | Truth (b : bool) | NoAttribute | Failure (e : exn).

(** The instances, with their classes; a destroyed one is [None].  A constructor that fails leaves no instance. *)
Definition heap := list (nat * option object).
Definition members_of (w : world) (c : nat) : list member :=
  match nth_error w c with Some k => c_members k | None => nil end.
Definition view_of (w : world) (c : nat) : view :=
  match nth_error w c with Some k => View (c_members k) (b_final (c_body k)) | None => View nil false end.

Definition put_object (h : heap) (i c : nat) (o : option object) : heap := firstn i h ++ (c, o) :: skipn (S i) h.
Definition to_answer {A} (f : A -> answer) (r : outcome A) : answer :=
  match r with Gives a => f a | AttributeError => NoAttribute | Raises e => Failure e end.
Definition with_object (h : heap) (i : nat) (f : nat -> object -> heap * answer) : heap * answer :=
  match nth_error h i with Some (c, Some o) => f c o | _ => (h, Failure GenericError) end.
Definition changed (h : heap) (i c : nat) (r : outcome object) : heap * answer :=
  match r with
  | Gives o => (put_object h i c (Some o), Nothing)
  | AttributeError => (h, NoAttribute)
  | Raises e => (h, Failure e)
  end.
Definition added (h : heap) (c : nat) (r : outcome object) : heap * answer :=
  match r with
  | Gives o => (h ++ [(c, Some o)], Nothing)
  | AttributeError => (h, NoAttribute)
  | Raises e => (h, Failure e)
  end.

Definition run_op (T : types) (w : world) (h : heap) (p : op) : heap * answer :=
  match p with
  | New compiled c memory kwargs =>
      let ms := members_of w c in
      added h c (if compiled then o <~ compiled_make T ms memory ; compiled_set_names T ms kwargs o
                 else o <~ make_instance T ms memory ; set_names ms kwargs o)
  | Get i n => with_object h i (fun c o => (h, to_answer Value (get_name (members_of w c) n o)))
  | Set_ i n v => with_object h i (fun c o => changed h i c (set_name (members_of w c) n v o))
  | Del i n => with_object h i (fun c o => changed h i c (del_name (members_of w c) n o))
  | CompiledGet A i n => with_object h i (fun c o => (h, to_answer Value (compiled_get (view_of w A) (members_of w c) n o)))
  | CompiledHas A i n => with_object h i (fun c o => (h, to_answer Truth (compiled_has (view_of w A) n o)))
  | CompiledSet A i n v => with_object h i (fun c o => changed h i c (compiled_set T (view_of w A) (members_of w c) n v o))
  | CompiledDel A i n => with_object h i (fun c o => changed h i c (compiled_del T (view_of w A) n o))
  | Copy compiled i memory =>
      with_object h i (fun c o => added h c (if compiled then compiled_copy (members_of w c) o memory
                                             else copy_construct (members_of w c) o memory))
  | DeepCopy i memory => with_object h i (fun c o => added h c (deepcopy (members_of w c) o memory))
  | Assign compiled i j =>
      with_object h i (fun c o => with_object h j (fun _ src =>
        changed h i c (if compiled then compiled_assign (members_of w c) src o else assign (members_of w c) src o)))
  | Equal i j =>
      with_object h i (fun c a => with_object h j (fun _ b => (h, to_answer Truth (equal T (members_of w c) a b))))
  | Send i memory =>
      with_object h i (fun c o =>
        added h c (fs <~ serialize (members_of w c) o ; deserialize (members_of w c) fs memory))
  | Drop i =>
      with_object h i (fun c o =>
        match destroy (members_of w c) o with
        | Gives o' => (put_object h i c None, if existsb (fun x => x) (o_built o') then Failure UndefinedBehaviour else Nothing)
        | AttributeError => (h, NoAttribute)
        | Raises e => (h, Failure e)
        end)
  end.
Fixpoint run_ops (T : types) (w : world) (h : heap) (ps : list op) : heap * list answer :=
  match ps with
  | nil => (h, nil)
  | p :: r => let (h1, a) := run_op T w h p in let (h2, l) := run_ops T w h1 r in (h2, a :: l)
  end.
