(** The reference counts of typed objects: copying, destroying and assigning values, in the interpreter and in compiled code. *)
From Verif Require Import Base.
Open Scope Z_scope.
Open Scope list_scope.
Open Scope result_scope.

Notation addr := Z (only parsing).

(** ** Values and objects *)

(** The types whose values are a pointer to an object that counts its references: str and bytes, ListOf and TupleOf, ConstDict,
    Alternative, Class, Dict and Set, and TypedCell. *)
Inductive kind := Text | Array | Sorted | Choice | Object | Table | Cell.

(** An empty str, bytes, TupleOf, ListOf or ConstDict can be a null pointer; [destroy] of the other types follows the pointer without a
    look at it (AlternativeType.cpp:204, ClassType.cpp:222, DictType.cpp:358, SetType.cpp:97, TypedCellType.hpp:193). *)
Definition nullable (k : kind) : bool := match k with Text | Array | Sorted => true | _ => false end.

(** What is stored in place: data without references, an alternative none of whose options has members ([Tag], one byte), a pointer, the
    parts of a Tuple or NamedTuple, a OneOf, and the members of a HeldClass, [None] standing for one whose initialization flag is not set
    (its memory is not modelled).  A [Row] is what an Array, Sorted or Table holds: its elements, its keys and then its values, or
    the key and the value of each slot, [None] for a slot that is not populated. *)
Inductive val :=
| Plain (x : Z)
| Tag (x : Z)
| Ref (k : kind) (p : option addr)
| Parts (vs : list val)
| OneOf (which : nat) (v : val)
| Members (ms : list (option val))
| Row (es : list (option val)).

(** An object: its refcount and what it holds.  A Text holds no references; a Choice holds the NamedTuple of its option; an Object holds
    the members of its class, which has no [__del__]; a Cell holds one member. *)
Record node := Node { count : Z; body : val }.
Definition heap := list (addr * node).

(** The variables that hold values (the [Instance]s in the hands of the interpreter, or the stack slots of compiled code), [None] for one
    that holds no value, and the objects that were allocated and not freed. *)
Record mem := Mem { vars : list (option val); objects : heap }.

Fixpoint find (h : heap) (a : addr) : option node :=
  match h with
  | [] => None
  | (b, n) :: r => if b =? a then Some n else find r a
  end.

Fixpoint set (h : heap) (a : addr) (n : node) : heap :=
  match h with
  | [] => []
  | (b, o) :: r => if b =? a then (b, n) :: r else (b, o) :: set r a n
  end.

(** [tp_free] *)
Fixpoint free (h : heap) (a : addr) : heap :=
  match h with
  | [] => []
  | (b, o) :: r => if b =? a then r else (b, o) :: free r a
  end.

(** An access to an object that is not allocated. *)
Definition object (h : heap) (a : addr) : result node :=
  match find h a with Some n => Ok n | None => Err UndefinedBehaviour end.

(** ** [copy_constructor] *)

(** [refcount++] *)
Definition incref (h : heap) (a : addr) : result heap :=
  n <- object h a ;; Ok (set h a (Node (count n + 1) (body n))).

(** What [copy_constructor] does besides copying the bytes.
    TupleOrListOfType.cpp:234-239, StringType.cpp:1638-1643, BytesType.cpp:460-465, ConstDictType.cpp:545-550, AlternativeType.cpp:212-223,
    ClassType.cpp:230-233, DictType.cpp:376-379, SetType.cpp:114-117, TypedCellType.hpp:203-206, CompositeType.cpp:150-154,
    OneOfType.cpp:140-143, HeldClassType.cpp:335-345.  In compiled code: refcounted_wrapper.py:73-99, tuple_wrapper.py:363-366,
    one_of_wrapper.py:384-398, held_class_wrapper.py:143-151, where parts and members are copied from the first to the last, which is not
    modelled: increments in another order give the same counts. *)
Fixpoint copied (v : val) (h : heap) {struct v} : result heap :=
  match v with
  | Plain _ | Tag _ => Ok h
  | Ref k None => if nullable k then Ok h else Err UndefinedBehaviour
  | Ref _ (Some a) => incref h a
  | Parts vs =>
      (fix last_first (vs : list val) : result heap :=
         match vs with
         | [] => Ok h
         | v :: r => h' <- last_first r ;; copied v h'
         end) vs
  | OneOf _ v => copied v h
  | Members ms | Row ms =>
      (fix last_first (ms : list (option val)) : result heap :=
         match ms with
         | [] => Ok h
         | Some v :: r => h' <- last_first r ;; copied v h'
         | None :: r => last_first r
         end) ms
  end.

(** ** [destroy] *)

Fixpoint each (f : heap -> val -> result heap) (h : heap) (vs : list val) : result heap :=
  match vs with
  | [] => Ok h
  | v :: r => h' <- f h v ;; each f h' r
  end.

Fixpoint present (ms : list (option val)) : list val :=
  match ms with
  | [] => []
  | Some v :: r => v :: present r
  | None :: r => present r
  end.

(** The interpreter destroys parts and members from the last to the first, compiled code ([compiled]) from the first to the last.
    TupleOrListOfType.cpp:218-232, StringType.cpp:1624-1636, BytesType.cpp:446-458, ConstDictType.cpp:517-543, AlternativeType.cpp:199-210,
    ClassType.cpp:221-228, DictType.cpp:357-374, SetType.cpp:96-112, TypedCellType.hpp:192-201, CompositeType.cpp:144-148,
    OneOfType.cpp:135-138, HeldClassType.cpp:325-333.  In compiled code: refcounted_wrapper.py:101-134, tuple_of_wrapper.py:352-362,
    dict_wrapper.py:613-626, alternative_wrapper.py:328-336, class_wrapper.py:539-559, typed_cell_wrapper.py:89-96, tuple_wrapper.py:368-372,
    one_of_wrapper.py:416-425, held_class_wrapper.py:258-274.  An object is freed after what it holds was destroyed. *)
Fixpoint destroy (compiled : bool) (fuel : nat) (h : heap) (v : val) : result heap :=
  match fuel with
  | O => Err OutOfFuel
  | S fuel =>
      match v with
      | Plain _ | Tag _ => Ok h
      | Ref k None => if nullable k then Ok h else Err UndefinedBehaviour
      | Ref _ (Some a) =>
          n <- object h a ;;
          let h1 := set h a (Node (count n - 1) (body n)) in
          if count n =? 1
          then h2 <- destroy compiled fuel h1 (body n) ;; Ok (free h2 a)
          else Ok h1
      | Parts vs => each (destroy compiled fuel) h (if compiled then vs else rev vs)
      | OneOf _ v => destroy compiled fuel h v
      | Members ms => each (destroy compiled fuel) h (if compiled then present ms else rev (present ms))
      | Row es => each (destroy compiled fuel) h (present es)
      end
  end.

Fixpoint size (v : val) : nat :=
  match v with
  | Plain _ | Tag _ | Ref _ _ => 1
  | Parts vs => S (fold_right (fun v n => size v + n)%nat O vs)
  | OneOf _ v => S (size v)
  | Members ms | Row ms => S (fold_right (fun o n => match o with Some v => size v + n | None => n end)%nat O ms)
  end.

(** Steps that always suffice (an object is taken apart at most once), for [destroy], which the code writes without a bound. *)
Definition enough (h : heap) (v : val) : nat := size v + fold_right (fun p n => S (size (body (snd p))) + n)%nat O h.
Definition destroyed (compiled : bool) (h : heap) (v : val) : result heap := destroy compiled (enough h v) h v.

(** ** Places in memory *)

Inductive base := Var (x : nat) | At (a : addr).
Record place := Place { root : base; path : list nat }.

(** The part of a value that a path leads to, through members that are set. *)
Fixpoint sub (v : val) (p : list nat) : option val :=
  match p with
  | [] => Some v
  | i :: p =>
      match v with
      | Parts vs => match nth_error vs i with Some w => sub w p | None => None end
      | OneOf _ w => if Nat.eqb i 0 then sub w p else None
      | Members ms | Row ms => match nth_error ms i with Some (Some w) => sub w p | _ => None end
      | _ => None
      end
  end.

Fixpoint replace {A} (l : list A) (i : nat) (x : A) : list A :=
  match l, i with
  | [], _ => []
  | _ :: r, O => x :: r
  | y :: r, S i => y :: replace r i x
  end.

Fixpoint put (v : val) (p : list nat) (x : val) : val :=
  match p with
  | [] => x
  | i :: p =>
      match v with
      | Parts vs => match nth_error vs i with Some w => Parts (replace vs i (put w p x)) | None => v end
      | OneOf n w => OneOf n (put w p x)
      | Members ms => match nth_error ms i with Some (Some w) => Members (replace ms i (Some (put w p x))) | _ => v end
      | Row es => match nth_error es i with Some (Some w) => Row (replace es i (Some (put w p x))) | _ => v end
      | _ => v
      end
  end.

Definition whole (m : mem) (b : base) : option val :=
  match b with
  | Var x => match nth_error (vars m) x with Some o => o | None => None end
  | At a => option_map body (find (objects m) a)
  end.

(** Reading and writing memory that holds no value, or is not allocated, is undefined. *)
Definition read (m : mem) (p : place) : result val :=
  match whole m (root p) with
  | Some v => match sub v (path p) with Some w => Ok w | None => Err UndefinedBehaviour end
  | None => Err UndefinedBehaviour
  end.

Definition store (m : mem) (b : base) (v : val) : mem :=
  match b with
  | Var x => Mem (replace (vars m) x (Some v)) (objects m)
  | At a => match find (objects m) a with Some n => Mem (vars m) (set (objects m) a (Node (count n) v)) | None => m end
  end.

Definition write (m : mem) (p : place) (x : val) : result mem :=
  match whole m (root p) with
  | Some v => match sub v (path p) with Some _ => Ok (store m (root p) (put v (path p) x)) | None => Err UndefinedBehaviour end
  | None => Err UndefinedBehaviour
  end.

Definition within (p : place) (i : nat) : place := Place (root p) (path p ++ [i]).

Definition copies (m : mem) (v : val) : result mem := h <- copied v (objects m) ;; Ok (Mem (vars m) h).
Definition destroys (compiled : bool) (m : mem) (v : val) : result mem :=
  h <- destroyed compiled (objects m) v ;; Ok (Mem (vars m) h).

(** ** [assign] *)

Fixpoint down (f : nat -> mem -> result mem) (n : nat) (m : mem) : result mem :=
  match n with
  | O => Ok m
  | S k => m' <- f k m ;; down f k m'
  end.

Fixpoint upto (f : nat -> mem -> result mem) (n : nat) (m : mem) : result mem :=
  match n with
  | O => Ok m
  | S k => m' <- upto f k m ;; f k m'
  end.

Definition member (v : val) (k : nat) : option val :=
  match v with Members ms => match nth_error ms k with Some o => o | None => None end | _ => None end.

Definition unset (v : val) (k : nat) : val := match v with Members ms => Members (replace ms k None) | _ => v end.

Definition same_kind (k l : kind) : bool :=
  match k, l with
  | Text, Text | Array, Array | Sorted, Sorted | Choice, Choice | Object, Object | Table, Table | Cell, Cell => true
  | _, _ => false
  end.

Definition same_base (b c : base) : bool :=
  match b, c with Var x, Var y => Nat.eqb x y | At x, At y => x =? y | _, _ => false end.

Fixpoint same_path (p q : list nat) : bool :=
  match p, q with [], [] => true | x :: p, y :: q => Nat.eqb x y && same_path p q | _, _ => false end.

Definition same_pointer (p q : option addr) : bool :=
  match p, q with None, None => true | Some a, Some b => a =? b | _, _ => false end.

(** In the interpreter: TupleOrListOfType.cpp:241-255 (an [Array] looks first whether it is assigned to itself), StringType.cpp:1645-1655,
    BytesType.cpp:467-477, ConstDictType.cpp:552-562, AlternativeType.cpp:225-235 (which takes the byte of a [Tag] for a pointer too),
    ClassType.cpp:235-250, DictType.cpp:381-388, SetType.cpp:119-124, TypedCellType.hpp:208-215, CompositeType.cpp:156-160,
    OneOfType.cpp:145-156, HeldClassType.cpp:347-364 (a member that had no value is copied and its flag cleared). *)
Fixpoint assign (fuel : nat) (m : mem) (self other : place) : result mem :=
  match fuel with
  | O => Err OutOfFuel
  | S fuel =>
      old <- read m self ;;
      match old with
      | Plain _ => new <- read m other ;; write m self new
      | Tag _ => Err UndefinedBehaviour
      | Ref Cell p =>
          new <- read m other ;;
          match new with
          | Ref _ q =>
              if same_pointer p q then Ok m
              else
                m1 <- copies m new ;;
                m2 <- destroys false m1 old ;;
                new' <- read m2 other ;;
                write m2 self new'
          | _ => Err TypeError
          end
      | Ref k _ =>
          if same_kind k Array && same_base (root self) (root other) && same_path (path self) (path other) then Ok m
          else
            new <- read m other ;;
            m1 <- write m self new ;;
            m2 <- copies m1 new ;;
            destroys false m2 old
      | Parts vs => down (fun k m => assign fuel m (within self k) (within other k)) (length vs) m
      | OneOf which v =>
          new <- read m other ;;
          match new with
          | OneOf which' _ =>
              if Nat.eqb which which' then assign fuel m (within self 0) (within other 0)
              else
                m1 <- destroys false m v ;;
                new' <- read m1 other ;;
                m2 <- write m1 self new' ;;
                copies m2 new'
          | _ => Err TypeError
          end
      | Members ms =>
          down (fun k m =>
                  mine <- read m self ;;
                  theirs <- read m other ;;
                  match member mine k, member theirs k with
                  | Some _, Some _ => assign fuel m (within self k) (within other k)
                  | Some v, None => m1 <- destroys false m v ;; write m1 self (unset mine k)
                  | None, Some v => m1 <- copies m v ;; write m1 self (unset mine k)
                  | None, None => Ok m
                  end) (length ms) m
      | Row _ => Err TypeError
      end
  end.

(** In compiled code: arithmetic_wrapper.py:79-84 and alternative_wrapper.py:118-120 (POD types), refcounted_wrapper.py:62-71 (which loads
    what it stores after the old value was destroyed), tuple_wrapper.py:356-361, one_of_wrapper.py:320-331, held_class_wrapper.py:121-141
    (line 132 makes the expression that sets the flag and does not use it). *)
Fixpoint compiled_assign (fuel : nat) (m : mem) (self other : place) : result mem :=
  match fuel with
  | O => Err OutOfFuel
  | S fuel =>
      old <- read m self ;;
      match old with
      | Plain _ | Tag _ => new <- read m other ;; write m self new
      | Ref _ _ =>
          new <- read m other ;;
          m1 <- copies m new ;;
          m2 <- destroys true m1 old ;;
          new' <- read m2 other ;;
          write m2 self new'
      | Parts vs => upto (fun k m => compiled_assign fuel m (within self k) (within other k)) (length vs) m
      | OneOf _ _ =>
          new <- read m other ;;
          m1 <- write m self new ;;
          m2 <- copies m1 new ;;
          destroys true m2 old
      | Members ms =>
          upto (fun k m =>
                  mine <- read m self ;;
                  theirs <- read m other ;;
                  match member theirs k, member mine k with
                  | Some _, Some _ => compiled_assign fuel m (within self k) (within other k)
                  | Some v, None => m1 <- copies m v ;; write m1 self (unset mine k)
                  | None, Some v => m1 <- destroys true m v ;; write m1 self (unset mine k)
                  | None, None => Ok m
                  end) (length ms) m
      | Row _ => Err TypeError
      end
  end.

(** Assignment of one place to another; the steps are as many as the old value has parts. *)
Definition assigns (compiled : bool) (m : mem) (self other : place) : result mem :=
  old <- read m self ;; (if compiled then compiled_assign else assign) (size old) m self other.

(** ** Members, elements and cells *)

Definition set_member (v : val) (k : nat) (x : val) : val :=
  match v with Members ms => Members (replace ms k (Some x)) | _ => v end.

(** [HeldClass::setAttribute], HeldClassType.cpp:253-267; class_wrapper.py:1371-1390 in compiled code ([value] already has the type of the member). *)
Definition set_attribute (compiled : bool) (m : mem) (obj : addr) (k : nat) (value : place) : result mem :=
  o <- read m (Place (At obj) []) ;;
  match member o k with
  | Some _ => assigns compiled m (Place (At obj) [k]) value
  | None =>
      new <- read m value ;;
      m1 <- copies m new ;;
      o' <- read m1 (Place (At obj) []) ;;
      write m1 (Place (At obj) []) (set_member o' k new)
  end.

(** [HeldClass::delAttribute], HeldClassType.cpp:244-251 *)
Definition del_attribute (compiled : bool) (m : mem) (obj : addr) (k : nat) : result mem :=
  o <- read m (Place (At obj) []) ;;
  match member o k with
  | Some v => m1 <- destroys compiled m v ;; write m1 (Place (At obj) []) (unset o k)
  | None => Ok m
  end.

(** [ListOfType::append], TupleOrListOfType.cpp:308-341, on a list that has a layout *)
Definition append (m : mem) (obj : addr) (value : place) : result mem :=
  o <- read m (Place (At obj) []) ;;
  match o with
  | Row es =>
      new <- read m value ;;
      m1 <- copies m new ;;
      write m1 (Place (At obj) []) (Row (es ++ [Some new]))
  | _ => Err TypeError
  end.

(** [ListOfType::remove], TupleOrListOfType.cpp:354-360 *)
Definition remove (m : mem) (obj : addr) (i : nat) : result mem :=
  o <- read m (Place (At obj) []) ;;
  match o with
  | Row es =>
      match nth_error es i with
      | Some (Some v) =>
          m1 <- destroys false m v ;;
          write m1 (Place (At obj) []) (Row (firstn i es ++ skipn (S i) es))
      | _ => Err UndefinedBehaviour
      end
  | _ => Err TypeError
  end.

(** [TypedCellType::clear], TypedCellType.hpp:226-231, and [cell_clear] in compiled code, typed_cell_wrapper.py:41-43 and 143-145, where
    [destroyUnsafe] leaves the flag as it was. *)
Definition cell_clear (compiled : bool) (m : mem) (obj : addr) : result mem :=
  o <- read m (Place (At obj) []) ;;
  match member o 0 with
  | Some v => m1 <- destroys compiled m v ;; if compiled then Ok m1 else write m1 (Place (At obj) []) (unset o 0)
  | None => Ok m
  end.

(** ** What a program does in the interpreter *)

(** Each step works on values in variables, as the functions that Python calls do: they are given [Instance]s.
    [Lit]: a new value without references; [New a k ys]: an object is made at [a], an address where nothing is allocated, from copies of
    the variables [ys]; [Tuple ys], [Choose n y]: a Tuple or a OneOf is made from copies; [Get x p]: a part of the object in [x] is copied to a new
    variable; [Put x p y]: a part of the object in [x] is assigned from [y]; [SetAttr], [DelAttr], [Append], [Remove], [ClearCell]; [Copy x]; [Drop x]: the variable [x] ends. *)
Inductive step :=
| Lit (x : Z)
| New (a : addr) (k : kind) (ys : list nat)
| Tuple (ys : list nat)
| Choose (which : nat) (y : nat)
| Copy (x : nat)
| Get (x : nat) (p : list nat)
| Put (x : nat) (p : list nat) (y : nat)
| SetAttr (x : nat) (k : nat) (y : nat)
| DelAttr (x : nat) (k : nat)
| Append (x : nat) (y : nat)
| Remove (x : nat) (i : nat)
| ClearCell (x : nat)
| Drop (x : nat).

(** The values of variables, which must hold some. *)
Fixpoint values (m : mem) (ys : list nat) : result (list val) :=
  match ys with
  | [] => Ok []
  | y :: r =>
      match whole m (Var y) with
      | Some v => vs <- values m r ;; Ok (v :: vs)
      | None => Err TypeError
      end
  end.

(** The object that a variable refers to. *)
Definition referred (m : mem) (k : kind -> bool) (x : nat) : result addr :=
  match whole m (Var x) with
  | Some (Ref l (Some a)) => if k l then Ok a else Err TypeError
  | _ => Err TypeError
  end.

Definition made (k : kind) (vs : list val) : val :=
  match k with
  | Text => Plain 0
  | Array | Sorted | Table => Row (map Some vs)
  | Choice => Parts vs
  | Object | Cell => Members (map Some vs)
  end.

Definition push (m : mem) (v : val) : mem := Mem (vars m ++ [Some v]) (objects m).

(** Whether two values have the same type, as far as the model knows it. *)
Fixpoint fits (v w : val) : bool :=
  match v, w with
  | Plain _, Plain _ => true
  | Tag _, Tag _ => true
  | Ref k _, Ref l _ => same_kind k l
  | Parts vs, Parts ws =>
      (fix all (vs ws : list val) : bool :=
         match vs, ws with
         | [], [] => true
         | v :: vs, w :: ws => fits v w && all vs ws
         | _, _ => false
         end) vs ws
  | OneOf n v, OneOf l w => negb (Nat.eqb n l) || fits v w
  | Members ms, Members ls =>
      (fix all (ms ls : list (option val)) : bool :=
         match ms, ls with
         | [], [] => true
         | o :: ms, q :: ls => match o, q with Some v, Some w => fits v w | _, _ => true end && all ms ls
         | _, _ => false
         end) ms ls
  | _, _ => false
  end.

Definition perform (m : mem) (s : step) : result mem :=
  match s with
  | Lit x => Ok (push m (Plain x))
  | New a k ys =>
      vs <- values m ys ;;
      match find (objects m) a with
      | Some _ => Err TypeError
      | None => m1 <- copies m (made k vs) ;; Ok (push (Mem (vars m1) ((a, Node 1 (made k vs)) :: objects m1)) (Ref k (Some a)))
      end
  | Tuple ys => vs <- values m ys ;; m1 <- copies m (Parts vs) ;; Ok (push m1 (Parts vs))
  | Choose n y => vs <- values m [y] ;; m1 <- copies m (OneOf n (hd (Plain 0) vs)) ;; Ok (push m1 (OneOf n (hd (Plain 0) vs)))
  | Copy x => vs <- values m [x] ;; m1 <- copies m (hd (Plain 0) vs) ;; Ok (push m1 (hd (Plain 0) vs))
  | Get x p =>
      a <- referred m (fun k => match k with Text | Table => false | _ => true end) x ;;
      match p with
      | [] => Err TypeError
      | _ =>
          match whole m (At a) with
          | Some b => match sub b p with Some v => m1 <- copies m v ;; Ok (push m1 v) | None => Err TypeError end
          | None => Err UndefinedBehaviour
          end
      end
  | Put x p y =>
      a <- referred m (fun k => match k with Array | Object => true | _ => false end) x ;;
      match p with
      | [] => Err TypeError
      | _ =>
          match whole m (At a), whole m (Var y) with
          | Some b, Some new =>
              match sub b p with
              | Some old => if fits old new then assigns false m (Place (At a) p) (Place (Var y) []) else Err TypeError
              | None => Err TypeError
              end
          | Some _, None => Err TypeError
          | None, _ => Err UndefinedBehaviour
          end
      end
  | SetAttr x k y =>
      a <- referred m (same_kind Object) x ;;
      match whole m (At a), whole m (Var y) with
      | Some b, Some new =>
          match b with
          | Members ms =>
              match nth_error ms k with
              | Some (Some old) => if fits old new then set_attribute false m a k (Place (Var y) []) else Err TypeError
              | Some None => set_attribute false m a k (Place (Var y) [])
              | None => Err TypeError
              end
          | _ => Err TypeError
          end
      | Some _, None => Err TypeError
      | None, _ => Err UndefinedBehaviour
      end
  | DelAttr x k => a <- referred m (same_kind Object) x ;; del_attribute false m a k
  | Append x y =>
      a <- referred m (same_kind Array) x ;;
      match whole m (Var y) with Some _ => append m a (Place (Var y) []) | None => Err TypeError end
  | Remove x i =>
      a <- referred m (same_kind Array) x ;;
      match whole m (At a) with
      | Some (Row es) => match nth_error es i with Some (Some _) => remove m a i | _ => Err IndexError end
      | Some _ => Err TypeError
      | None => Err UndefinedBehaviour
      end
  | ClearCell x => a <- referred m (same_kind Cell) x ;; cell_clear false m a
  | Drop x =>
      match whole m (Var x) with
      | Some v => m1 <- destroys false m v ;; Ok (Mem (replace (vars m1) x None) (objects m1))
      | None => Err TypeError
      end
  end.

Fixpoint run (m : mem) (ss : list step) : result mem :=
  match ss with
  | [] => Ok m
  | s :: r => m' <- perform m s ;; run m' r
  end.

Definition nothing : mem := Mem [] [].
