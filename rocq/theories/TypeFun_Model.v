(** Model of type functions, type_function.py:22-126: functions from arguments to types that run once for each
    set of arguments, call each other in cycles, and are called by many threads. *)
From Verif Require Import Base.

(** A type object: one that exists before, or one that a type function makes.  Each is made by a step of its
    own, and no two are the same. *)
Inductive tid := Builtin (n : nat) | Made (n : nat).
Definition tid_eqb (a b : tid) : bool :=
  match a, b with Builtin n, Builtin m => Nat.eqb n m | Made n, Made m => Nat.eqb n m | _, _ => false end.
(** What a call gives: a type, the Forward of a call that is not finished (there is one for each key, line 105),
    or an exception. *)
Inductive answer := GotType (t : tid) | GotForward (k : nat) | GotError (e : nat).
(** The function, line 111, as the steps it makes: making a type out of parts, calling a type function (with the
    arguments, or the function, of which the number is the key), returning, raising.  It is any Python code
    otherwise; it goes on with what a step gives, and may catch exceptions. *)
Inductive body :=
| Make (parts : list answer) (k : tid -> body)
| Call (key : nat) (k : answer -> body)
| Return (t : tid)
| Raise (e : nat).

(** An entry of [_typeFunctionMemo] *)
Inductive entry := Forward | Result (t : tid) | Failed (e : nat).
Definition answer_of (key : nat) (x : entry) : answer :=
  match x with Forward => GotForward key | Result t => GotType t | Failed e => GotError e end.

(** A thread: not in a call; past the look without the lock; inside of the lock, running the function for a key
    with the callers above it. *)
Inductive thread := Idle | Waiting (key : nat) | Running (key : nat) (b : body) (callers : list (nat * (answer -> body))).
Record state := {
  memo : nat -> option entry;                 (* [_typeFunctionMemo] *)
  defined : nat -> option tid;                (* what the Forward of a key is defined as *)
  origin : list (tid * nat);                  (* [_type_to_typefunction] without the Forwards, the latest first *)
  made : list (list answer);                  (* the parts of the types that were made *)
  lock : option nat;                          (* the thread that has [runtimeLock] *)
  threads : nat -> thread;
  started : list nat;                         (* the keys the function was run for: not in the code *)
  returned : list (nat * nat * answer) }.     (* what calls gave, with thread and key: not in the code *)
Definition start : state :=
  {| memo := fun _ => None; defined := fun _ => None; origin := []; made := []; lock := None; threads := fun _ => Idle;
     started := []; returned := [] |}.

Definition put {A} (k : nat) (x : A) (f : nat -> A) : nat -> A := fun j => if Nat.eqb j k then x else f j.
Definition set_thread (s : state) (i : nat) (t : thread) : state :=
  {| memo := memo s; defined := defined s; origin := origin s; made := made s; lock := lock s; threads := put i t (threads s);
     started := started s; returned := returned s |}.
Definition set_lock (s : state) (l : option nat) : state :=
  {| memo := memo s; defined := defined s; origin := origin s; made := made s; lock := l; threads := threads s;
     started := started s; returned := returned s |}.
Definition set_memo (s : state) (k : nat) (x : entry) : state :=
  {| memo := put k (Some x) (memo s); defined := defined s; origin := origin s; made := made s; lock := lock s; threads := threads s;
     started := started s; returned := returned s |}.
Definition log_start (s : state) (k : nat) : state :=
  {| memo := memo s; defined := defined s; origin := origin s; made := made s; lock := lock s; threads := threads s;
     started := k :: started s; returned := returned s |}.
Definition log_return (s : state) (i k : nat) (a : answer) : state :=
  {| memo := memo s; defined := defined s; origin := origin s; made := made s; lock := lock s; threads := threads s;
     started := started s; returned := (i, k, a) :: returned s |}.
(** [forward.define(resultType)], line 113 *)
Definition define (s : state) (k : nat) (t : tid) : state :=
  {| memo := memo s; defined := put k (Some t) (defined s); origin := origin s; made := made s; lock := lock s; threads := threads s;
     started := started s; returned := returned s |}.
Definition has_origin (s : state) (t : tid) : bool := existsb (fun p => tid_eqb (fst p) t) (origin s).
(** Lines 117-118 *)
Definition note_origin (s : state) (k : nat) (t : tid) : state :=
  if has_origin s t then s
  else {| memo := memo s; defined := defined s; origin := (t, k) :: origin s; made := made s; lock := lock s; threads := threads s;
          started := started s; returned := returned s |}.
Definition add_made (s : state) (parts : list answer) : state :=
  {| memo := memo s; defined := defined s; origin := origin s; made := made s ++ [parts]; lock := lock s; threads := threads s;
     started := started s; returned := returned s |}.
(** Code has no Forward that was not made. *)
Definition exists_already (s : state) (a : answer) : bool :=
  match a with GotForward k => match memo s k with Some _ => true | None => false end | GotType _ => true | GotError _ => false end.

(** [isTypeFunctionType], lines 26-34, for a type that is not a Forward *)
Definition type_function_of (s : state) (t : tid) : option nat :=
  match find (fun p => tid_eqb (fst p) t) (origin s) with Some (_, k) => Some k | None => None end.

Section Function.
Variable f : nat -> body.

(** A call that gave [a] comes back to the caller: the code goes on, or the thread leaves the lock. *)
Definition come_back (s : state) (i k : nat) (a : answer) (callers : list (nat * (answer -> body))) : state :=
  match callers with
  | (k', c) :: callers => set_thread s i (Running k' (c a) callers)
  | [] => log_return (set_lock (set_thread s i Idle) None) i k a
  end.
(** Lines 98-111, by the thread that has the lock: the entry if there is one, else the function is started. *)
Definition locked_call (s : state) (i k : nat) (callers : list (nat * (answer -> body))) : state :=
  match memo s k with
  | Some x => come_back s i k (answer_of k x) callers
  | None => set_thread (log_start (set_memo s k Forward) k) i (Running k (f k) callers)
  end.
(** One step of a thread that is in a call.  None: it cannot go on now. *)
Definition go (s : state) (i : nat) : option state :=
  match threads s i with
  | Idle => None
  | Waiting k =>                                                           (* line 98: the lock *)
      match lock s with
      | None => Some (locked_call (set_lock s (Some i)) i k [])
      | Some _ => None
      end
  | Running k b callers =>
      match b with
      | Make parts c =>
          Some (set_thread (add_made s (filter (exists_already s) parts)) i (Running k (c (Made (length (made s)))) callers))
      | Call k' c => Some (locked_call s i k' ((k, c) :: callers))           (* the lock is reentrant *)
      | Return t =>                                                        (* lines 113-122 *)
          Some (come_back (set_memo (note_origin (define s k t) k t) k (Result t)) i k (GotType t) callers)
      | Raise e => Some (come_back (set_memo s k (Failed e)) i k (GotError e) callers)   (* lines 123-126 *)
      end
  end.
(** A call from outside, lines 88-96: an entry that is no Forward is returned without the lock. *)
Definition begin (s : state) (i k : nat) : option state :=
  match threads s i with
  | Idle =>
      match memo s k with
      | Some (Result t) => Some (log_return s i k (GotType t))
      | Some (Failed e) => Some (log_return s i k (GotError e))
      | _ => Some (set_thread s i (Waiting k))
      end
  | _ => None
  end.

(** What happens: a thread calls for a key, or goes on.  Events that are not possible do nothing. *)
Inductive event := Begins (i k : nat) | Goes (i : nat).
Definition happen (s : state) (e : event) : state :=
  match match e with Begins i k => begin s i k | Goes i => go s i end with Some s => s | None => s end.
Definition run (es : list event) : state := fold_left happen es start.
End Function.

(** ** Arguments, type_function.py:59-84 *)

(** Arguments of a type function; the names of keyword arguments and the keys of dicts are strings, in their
    order.  Floats, bytes and functions, which are kept as they are, are left out, and so are dicts with other
    keys. *)
Inductive val := VNone | VBool (b : bool) | VInt (x : Z) | VStr (s : nat) | VType (n : nat)
| VTuple (l : list val) | VList (l : list val) | VDict (l : list (nat * val)).
(** [sorted] of pairs whose names differ: the values are not compared. *)
Fixpoint insert_pair (p : nat * val) (l : list (nat * val)) : list (nat * val) :=
  match l with [] => [p] | q :: l => if fst p <=? fst q then p :: q :: l else q :: insert_pair p l end.
Definition sort_pairs (l : list (nat * val)) : list (nat * val) := fold_right insert_pair [] l.
(** [mapArg], lines 59-81 *)
Fixpoint map_arg (v : val) : val :=
  match v with
  | VTuple l | VList l => VTuple (map map_arg l)
  | VDict l => VTuple (map (fun p => VTuple [VStr (fst p); snd p]) (sort_pairs (map (fun p => (fst p, map_arg (snd p))) l)))
  | v => v
  end.
(** Lines 83-86: the key of a call, but for the function itself *)
Definition call_key (args : list val) (kwargs : list (nat * val)) : list val * list (nat * val) :=
  (map map_arg args, sort_pairs (map (fun p => (fst p, map_arg (snd p))) kwargs)).
