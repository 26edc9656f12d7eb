(** Model of how compiled code calls a method of an object that it knows as one of a base class: dispatch tables
    (HeldClassType.hpp, HeldClassType.cpp), their slots, pointers that carry the index of a table (ClassType.hpp,
    class_wrapper.py), casts, and compiling a slot when it is called for the first time
    (python_to_native_converter.py, _runtime.cpp).

    A signature (name, return type and argument types) is a number.  What is compiled for a slot is [Code c s]: the
    code by which class [c] answers a call of signature [s].  One thread runs at a time: the source holds the GIL
    wherever tables change.  Class statements are those of Class_Model. *)
From Verif Require Import Base Class_Model.
Open Scope list_scope.
Open Scope result_scope.

(** A cell of a table of function pointers.  Memory from [tp_malloc] is [Uninitialised]. *)
Inductive pointer := Uninitialised | Null | Code (c : nat) (s : Z).
Definition is_code (p : pointer) (c : nat) (s : Z) : bool :=
  match p with Code c' s' => Nat.eqb c c' && Z.eqb s s' | _ => false end.

(** [ClassDispatchTable], HeldClassType.hpp:129-287. *)
Record table := Table {
  t_impl : nat;
  t_iface : nat;
  t_ptrs : list pointer;
  t_upcast : list Z;
  t_allocated : nat;
  t_used : nat;
  t_indices : list (Z * nat);
  t_definitions : list (nat * Z);
  t_needing : list nat
}.

Definition set_nth {A} (l : list A) (i : nat) (x : A) : list A := firstn i l ++ x :: skipn (S i) l.
Fixpoint find_slot (l : list (Z * nat)) (s : Z) : option nat :=
  match l with nil => None | (s', i) :: r => if Z.eqb s' s then Some i else find_slot r s end.
Fixpoint find_definition (l : list (nat * Z)) (i : nat) : option Z :=
  match l with nil => None | (i', s) :: r => if Nat.eqb i' i then Some s else find_definition r i end.

(** [allocateMethodDispatch], 168-211. *)
Definition allocate_in (t : table) (s : Z) : result (nat * table) :=
  match find_slot (t_indices t) s with
  | Some i => Ok (i, t)
  | None =>
      let new := List.length (t_indices t) in
      let indices := t_indices t ++ [(s, new)] in
      let definitions := t_definitions t ++ [(new, s)] in
      let grows := Nat.leb (t_allocated t) (t_used t) in
      let allocated := if grows then ((t_allocated t + 1) * 2)%nat else t_allocated t in
      let ptrs := if grows then firstn (t_used t) (t_ptrs t) ++ repeat Uninitialised (allocated - t_used t) else t_ptrs t in
      let used := S (t_used t) in
      if Nat.eqb used (List.length indices) then
        Ok (new, Table (t_impl t) (t_iface t) (set_nth ptrs new Null) (t_upcast t) allocated used indices definitions
                   (new :: t_needing t))
      else Err GenericError
  end.

(** [define], 213-231. *)
Definition define (t : table) (i : nat) (c : nat) (s : Z) : result table :=
  if is_code (nth i (t_ptrs t) Uninitialised) c s then Ok t
  else if mem i (t_needing t) then
    Ok (Table (t_impl t) (t_iface t) (set_nth (t_ptrs t) i (Code c s)) (t_upcast t) (t_allocated t) (t_used t)
          (t_indices t) (t_definitions t) (filter (fun j => negb (Nat.eqb j i)) (t_needing t)))
  else Err GenericError.

(** ** The classes and their tables *)

(** [installed]: [_installedVMIs], python_to_native_converter.py.  [memory]: the class of each object, by its
    address.  [vars]: the variables of compiled code, with the class that it knows the object as.  [sites]: call
    sites with class, signature and the slot that was found when the code was loaded. *)
Record state := State {
  s_world : world;
  s_tables : list (list table);
  s_implementors : list (list nat);
  s_installed : list (nat * nat * nat);
  s_memory : list (Z * nat);
  s_vars : list (nat * Z);
  s_sites : list (nat * Z * nat)
}.

Definition or_fail {A} (x : option A) (e : exn) : result A := match x with Some a => Ok a | None => Err e end.

(** [dispatchTableAs], HeldClassType.hpp:1068-1075. *)
Definition table_as (st : state) (c a : nat) : result (nat * table) :=
  i <- or_fail (mro_index (s_world st) c a) GenericError ;;
  ts <- or_fail (nth_error (s_tables st) c) UndefinedBehaviour ;;
  t <- or_fail (nth_error ts i) UndefinedBehaviour ;;
  Ok (i, t).
Definition put_table (st : state) (c i : nat) (t : table) : state :=
  let ts := match nth_error (s_tables st) c with Some ts => ts | None => nil end in
  State (s_world st) (set_nth (s_tables st) c (set_nth ts i t)) (s_implementors st) (s_installed st) (s_memory st)
        (s_vars st) (s_sites st).

(** [allocateUpcastDispatchTables], HeldClassType.cpp:421-433: sixteen bits each. *)
Fixpoint upcasts (w : world) (c : nat) (order : list nat) : result (list Z) :=
  match order with
  | nil => Ok nil
  | a :: r => i <- or_fail (mro_index w c a) GenericError ;; l <- upcasts w c r ;; Ok (Z.modulo (Z.of_nat i) 65536 :: l)
  end.

(** [initialize], HeldClassType.hpp:150-166, of the table of [c] as [a]; [like] is the table of [a] as [a]. *)
Definition initialise (w : world) (c a : nat) (like : table) : result table :=
  ka <- or_fail (nth_error w a) UndefinedBehaviour ;;
  l <- upcasts w c (c_mro ka) ;;
  Ok (Table c a (repeat Null (t_used like) ++ repeat Uninitialised (t_allocated like - t_used like)) l
        (t_allocated like) (t_used like) (t_indices like) (t_definitions like) (seq 0 (t_used like))).

(** The rest of [initializeMRO], 936-957, for the new class [c]: its own table is empty. *)
Definition empty_table (c : nat) : table := Table c c nil nil 0 0 nil nil nil.
Fixpoint new_tables (st : state) (w : world) (c : nat) (order : list nat) : result (list table) :=
  match order with
  | nil => Ok nil
  | a :: r =>
      like <- (if Nat.eqb a c then Ok (empty_table c) else it <- table_as st a a ;; Ok (snd it)) ;;
      t <- initialise w c a like ;;
      ts <- new_tables st w c r ;;
      Ok (t :: ts)
  end.
Definition new_class (st : state) (bases : list nat) (b : body) : result state :=
  w <- make (s_world st) bases b ;;
  let c := List.length (s_world st) in
  k <- or_fail (nth_error w c) UndefinedBehaviour ;;
  ts <- new_tables st w c (c_mro k) ;;
  let ims := s_implementors st ++ [nil] in
  let ims := map (fun p => if mem (fst p) (c_mro k) then snd p ++ [c] else snd p) (combine (seq 0 (List.length ims)) ims) in
  Ok (State w (s_tables st ++ [ts]) ims (s_installed st) (s_memory st) (s_vars st) (s_sites st)).

(** ** Slots *)

(** [HeldClass::allocateMethodDispatch], HeldClassType.hpp:1002-1013. *)
Definition allocate_at (st : state) (c a : nat) (s : Z) : result (nat * state) :=
  it <- table_as st c a ;;
  r <- allocate_in (snd it) s ;;
  Ok (fst r, put_table st c (fst it) (snd r)).
Fixpoint allocate_all (st : state) (children : list nat) (a : nat) (s : Z) (slot : nat) : result state :=
  match children with
  | nil => Ok st
  | c :: r =>
      x <- allocate_at st c a s ;;
      if Nat.eqb (fst x) slot then allocate_all (snd x) r a s slot else Err GenericError
  end.
Definition allocate (st : state) (a : nat) (s : Z) : result (nat * state) :=
  x <- allocate_at st a a s ;;
  ims <- or_fail (nth_error (s_implementors st) a) UndefinedBehaviour ;;
  st' <- allocate_all (snd x) ims a s (fst x) ;;
  Ok (fst x, st').

(** The slots that a module of compiled code needs are allocated when it is loaded, loaded_module.py:106-114. *)
Fixpoint allocate_each (st : state) (loads : list (nat * Z)) : result state :=
  match loads with
  | nil => Ok st
  | (a, s) :: r => x <- allocate st a s ;; allocate_each (snd x) r
  end.

(** [compileSingleClassDispatch], python_to_native_converter.py:503-537, with [getClassMethodDispatchSignature] and
    [installClassMethodDispatch], _types.cpp:477-550.  The module that is compiled and loaded in the middle needs the
    slots [loads]. *)
Definition is_installed (st : state) (a c i : nat) : bool :=
  existsb (fun x => Nat.eqb (fst (fst x)) a && Nat.eqb (snd (fst x)) c && Nat.eqb (snd x) i) (s_installed st).
Definition compile (loads : list (nat * Z)) (st : state) (a c i : nat) : result state :=
  if is_installed st a c i then Ok st
  else
    it <- table_as st c a ;;
    s <- or_fail (find_definition (t_definitions (snd it)) i) GenericError ;;
    st <- allocate_each st loads ;;
    it <- table_as st c a ;;
    t <- define (snd it) i c s ;;
    let st := put_table st c (fst it) t in
    Ok (State (s_world st) (s_tables st) (s_implementors st) ((a, c, i) :: s_installed st) (s_memory st) (s_vars st) (s_sites st)).

(** ** Pointers *)

Definition low48 : Z := 281474976710655.
Definition two64 : Z := 18446744073709551616.
Definition is_final (w : world) (c : nat) : bool :=
  match nth_error w c with Some k => b_final (c_body k) | None => false end.
Definition class_at (st : state) (address : Z) : result nat :=
  match find (fun e => Z.eqb (fst e) address) (s_memory st) with Some e => Ok (snd e) | None => Err UndefinedBehaviour end.

(** [get_layout_pointer_native] and [get_dispatch_index], class_wrapper.py:386-398, 480-486, of an object that is
    known as one of class [a].  A pointer to an object of a final class is used as it is. *)
Definition layout_pointer (w : world) (a : nat) (p : Z) : Z := if is_final w a then p else Z.land p low48.
Definition dispatch_index (p : Z) : nat := Z.to_nat (Z.shiftr p 48).

(** [classDispatchTable], 400-421. *)
Definition table_of (st : state) (a : nat) (p : Z) : result table :=
  c <- class_at st (layout_pointer (s_world st) a p) ;;
  ts <- or_fail (nth_error (s_tables st) c) UndefinedBehaviour ;;
  or_fail (nth_error ts (dispatch_index p)) UndefinedBehaviour.

(** [withDispatchIndex], 423-441; [getDispatchIndexForType], _types.cpp:568-600. *)
Definition upcast (st : state) (a b : nat) (p : Z) : result Z :=
  index <- or_fail (mro_index (s_world st) a b) GenericError ;;
  t <- table_of st a p ;;
  i <- or_fail (nth_error (t_upcast t) index) UndefinedBehaviour ;;
  Ok (Z.modulo (Z.land p low48 + Z.modulo (Z.shiftl i 48) two64) two64).

(** [initializeInstance], ClassType.hpp:77-92. *)
Definition tagged (address : Z) (i : nat) : Z := Z.modulo (address + Z.modulo (Z.shiftl (Z.modulo (Z.of_nat i) 65536) 48) two64) two64.

(** [np_classObjectDowncast], _runtime.cpp:136-154. *)
Definition downcast (st : state) (b : nat) (p : Z) : result (option Z) :=
  c <- class_at st (Z.land p low48) ;;
  match mro_index (s_world st) c b with
  | None => Ok None
  | Some i => Ok (Some (tagged (Z.land p low48) i))
  end.

(** [convert_to_type_with_target], class_wrapper.py:298-356: [None] if the object is not one of class [b]. *)
Definition cast (st : state) (a b : nat) (p : Z) : result (option Z) :=
  if is_subclass (s_world st) a b then q <- upcast st a b p ;; Ok (Some q)
  else if is_final (s_world st) b then
    c <- class_at st (layout_pointer (s_world st) a p) ;;
    Ok (if Nat.eqb c b then Some (layout_pointer (s_world st) a p) else None)
  else downcast st b p.

(** ** Calls *)

Definition read_pointer (t : table) (slot : nat) : result pointer :=
  match nth_error (t_ptrs t) slot with
  | None | Some Uninitialised => Err UndefinedBehaviour
  | Some x => Ok x
  end.

(** [dispatchToSingleOverload], class_wrapper.py:1166-1183, with [np_compileClassDispatch], _runtime.cpp:58-108: the
    slot is compiled if it is empty, and read again.  [find_table] finds the table, now and after compiling. *)
Definition dispatch (loads : list (nat * Z)) (find_table : state -> result table) (st : state) (slot : nat) : result (state * (nat * Z)) :=
  t <- find_table st ;;
  p <- read_pointer t slot ;;
  match p with
  | Code c s => Ok (st, (c, s))
  | _ =>
      st <- compile loads st (t_iface t) (t_impl t) slot ;;
      t <- find_table st ;;
      p <- read_pointer t slot ;;
      match p with Code c s => Ok (st, (c, s)) | _ => Err TypeError end
  end.

(** [computeTypeClassDispatchTable], _runtime.cpp:217-237, for calls on a class that is known as a subclass of [a].
    If there is no such table the search leaves the array. *)
Definition table_of_type (c a : nat) (st : state) : result table :=
  ts <- or_fail (nth_error (s_tables st) c) UndefinedBehaviour ;;
  or_fail (find (fun t => Nat.eqb (t_iface t) a) ts) UndefinedBehaviour.

(** [triggerVirtualMethodInstantiation] and [flushDelayedVMIs], python_to_native_converter.py:463-501. *)
Fixpoint force (st : state) (c : nat) (order : list nat) (s : Z) : result (state * list (nat * nat)) :=
  match order with
  | nil => Ok (st, nil)
  | a :: r => x <- allocate st a s ;; y <- force (snd x) c r s ;; Ok (fst y, (a, fst x) :: snd y)
  end.
Fixpoint compile_all (loads : list (nat * Z)) (st : state) (c : nat) (l : list (nat * nat)) : result state :=
  match l with nil => Ok st | (a, i) :: r => st' <- compile loads st a c i ;; compile_all loads st' c r end.

(** ** Programs *)

(** [loads]: the slots that code needs which this operation may compile. *)
Inductive op :=
| ClassStatement (bases : list nat) (b : body)
| Merge (c : nat)
| Load (a : nat) (s : Z)
| Create (c : nat) (address : Z)
| Receive (a c : nat) (address : Z)
| Cast (x b : nat)
| Call (site x : nat) (loads : list (nat * Z))
| CallOnType (site c : nat) (loads : list (nat * Z))
| Force (c : nat) (s : Z) (loads : list (nat * Z)).

(** [Ran c s]: the code by which class [c] answers signature [s] ran. *)
Inductive answer := Done | Truth (b : bool) | Ran (c : nat) (s : Z) | Failure (e : exn).

Definition with_world (st : state) (w : world) : state :=
  State w (s_tables st) (s_implementors st) (s_installed st) (s_memory st) (s_vars st) (s_sites st).
Definition add_var (st : state) (a : nat) (p : Z) : state :=
  State (s_world st) (s_tables st) (s_implementors st) (s_installed st) (s_memory st) (s_vars st ++ [(a, p)]) (s_sites st).
Definition add_object (st : state) (address : Z) (c : nat) : state :=
  State (s_world st) (s_tables st) (s_implementors st) (s_installed st) ((address, c) :: s_memory st) (s_vars st) (s_sites st).
Definition add_site (st : state) (a : nat) (s : Z) (slot : nat) : state :=
  State (s_world st) (s_tables st) (s_implementors st) (s_installed st) (s_memory st) (s_vars st) (s_sites st ++ [(a, s, slot)]).

Definition order_of (w : world) (c : nat) : list nat := match nth_error w c with Some k => c_mro k | None => nil end.
Definition step (st : state) (p : op) : result (state * answer) :=
  match p with
  | ClassStatement bases b => st <- new_class st bases b ;; Ok (st, Done)
  | Merge c => Ok (with_world st (merge_again (s_world st) c), Done)
  (** Global variables of loaded code, loaded_module.py:106-114. *)
  | Load a s => x <- allocate st a s ;; Ok (add_site (snd x) a s (fst x), Done)
  | Create c address => Ok (add_var (add_object st address c) c (tagged address 0), Done)
  (** [deserialize] of a class that is not final, ClassType.hpp:331-345. *)
  | Receive a c address =>
      i <- or_fail (mro_index (s_world st) c a) GenericError ;;
      Ok (add_var (add_object st address c) a (tagged address i), Done)
  | Cast x b =>
      v <- or_fail (nth_error (s_vars st) x) GenericError ;;
      q <- cast st (fst v) b (snd v) ;;
      match q with
      | Some q => Ok (add_var st b q, Truth true)
      | None => Ok (st, Truth false)
      end
  (** The code that is called knows the object as one of its own class, [stripClassDispatchIndex],
      class_wrapper.py:1215-1238, 1275-1279: a new variable. *)
  | Call site x loads =>
      v <- or_fail (nth_error (s_vars st) x) GenericError ;;
      l <- or_fail (nth_error (s_sites st) site) GenericError ;;
      if Nat.eqb (fst v) (fst (fst l)) then
        r <- dispatch loads (fun st => table_of st (fst v) (snd v)) st (snd l) ;;
        Ok (add_var (fst r) (fst (snd r)) (Z.land (snd v) low48), Ran (fst (snd r)) (snd (snd r)))
      else Err GenericError
  | CallOnType site c loads =>
      l <- or_fail (nth_error (s_sites st) site) GenericError ;;
      r <- dispatch loads (table_of_type c (fst (fst l))) st (snd l) ;;
      Ok (fst r, Ran (fst (snd r)) (snd (snd r)))
  | Force c s loads =>
      r <- force st c (order_of (s_world st) c) s ;;
      st <- compile_all loads (fst r) c (snd r) ;;
      Ok (st, Done)
  end.
Fixpoint run (st : state) (ps : list op) : state * list answer :=
  match ps with
  | nil => (st, nil)
  | p :: r =>
      let (st1, a) := match step st p with Ok x => x | Err e => (st, Failure e) end in
      let (st2, l) := run st1 r in (st2, a :: l)
  end.
Definition nothing : state := State nil nil nil nil nil nil nil.
