(** Groups of types and objects that see each other
    (typed_python/MutuallyRecursiveTypeGroup.cpp), found by any number of
    threads at once. *)

From Verif Require Import Base.
Open Scope list_scope.

(** The errors that the code may raise. *)
Inductive error : Type :=
| Again     (* "Can't create a new group for an object we're already considering" *)
| Parent    (* "Never found parent of object!", or reading before the stack *)
| Partial   (* "Somehow we have an MRTG where some of its members were found by
               another group, but not all?" *)
| Lost      (* "Couldn't find all the topos" *)
| Unhashed  (* "All reachable objects should be in this group or hashed already" *)
| Fuel.     (* the model's recursion ran out: not an error of the code *)

Inductive res (X : Type) : Type :=
| Ok (x : X)
| Bad (e : error).
Arguments Ok {X} x.
Arguments Bad {X} e.

Definition bind {X Y : Type} (r : res X) (k : X -> res Y) : res Y :=
  match r with
  | Ok x => k x
  | Bad e => Bad e
  end.

Fixpoint map_res {X Y : Type} (f : X -> res Y) (xs : list X) : res (list Y) :=
  match xs with
  | [] => Ok []
  | x :: xs => bind (f x) (fun y => bind (map_res f xs) (fun ys => Ok (y :: ys)))
  end.

Section Model.

(** Types and Python objects (TypeOrPyobj.hpp). *)
Context {V : Type} (eqb : V -> V -> bool).

(** What an object sees, in the order of CompilerVisibleObjectVisitor's
    visit; it does not change while groups are sought. *)
Variable succ : V -> list V.

(** CompilerVisibleObjectVisitor::isSimpleConstant. *)
Variable const : V -> bool.

(** computeRoot (MutuallyRecursiveTypeGroup.cpp:290-435): one of the members,
    and whether it could not be told apart from others. The code goes through
    the members in the order of their addresses, so the choice depends on
    the set of them only. *)
Variable root_of : list V -> V * bool.

(** Hashes. [mix] makes the hash of an object from what its visit shows
    besides objects and from how the objects are referred to, [sum] that of a
    group from those of its members; [poison] is ShaHash::poison(). *)
Context {H : Type}.

Inductive ref : Type :=
| RConst (v : V)               (* a constant, hashed by its value *)
| RIn (i : nat)                (* a member of the group, by its index *)
| ROut (h : H) (i : nat).      (* a member of another group *)

Variables (mix : V -> list ref -> H) (sum : list H -> H) (poison : H).

Definition mem (v : V) (xs : list V) : bool := existsb (eqb v) xs.

(** Insertion into a std::set. *)
Definition insert (xs : list V) (v : V) : list V :=
  if mem v xs then xs else xs ++ [v].

(** A MutuallyRecursiveTypeGroup: its members in their order
    (mIndexToObject), and its hash. *)
Record group : Type := Group { order : list V; hash : H }.

(** mTypeGroups. *)
Definition table : Type := list (V * group).

Fixpoint lookup (t : table) (v : V) : option group :=
  match t with
  | [] => None
  | (w, g) :: t => if eqb v w then Some g else lookup t v
  end.

Definition installed (t : table) (v : V) : bool :=
  match lookup t v with
  | Some _ => true
  | None => false
  end.

(** objectIsUnassigned, negated (MutuallyRecursiveTypeGroup.cpp:191-210). *)
Definition taken (t : table) (v : V) : bool := installed t v || const v.

(** The index of an object in a list (mObjectToIndex). *)
Fixpoint index (v : V) (xs : list V) : option nat :=
  match xs with
  | [] => None
  | x :: xs => if eqb v x then Some O else option_map S (index v xs)
  end.

(* -------------------------------------------------------------- *)
(** * Building a group *)

(** The function visit of buildCompilerRecursiveGroup (lines 486-502). The
    first argument bounds the recursion. *)
Fixpoint visit (n : nat) (ms : list V) (v : V) (ord : list V) : res (list V) :=
  match n with
  | O => Bad Fuel
  | S n =>
      if negb (mem v ms) || mem v ord then Ok ord
      else
        (fix each (ws : list V) (ord : list V) : res (list V) :=
           match ws with
           | [] => Ok ord
           | w :: ws => bind (visit n ms w ord) (each ws)
           end) (succ v) (ord ++ [v])
  end.

(** visitTopo of computeTopoHash (lines 604-633). *)
Definition refer (t : table) (ord : list V) (w : V) : res ref :=
  if const w then Ok (RConst w)
  else match index w ord with
       | Some i => Ok (RIn i)
       | None =>
           match lookup t w with
           | Some g =>
               match index w (order g) with
               | Some i => Ok (ROut (hash g) i)
               | None => Bad Unhashed
               end
           | None => Bad Unhashed
           end
       end.

(** computeTopoHash (lines 592-651). That the name of a type is left out of
    the hash of a group of one is a matter of [mix]. *)
Definition topo_hash (t : table) (ord : list V) (v : V) : res H :=
  bind (map_res (refer t ord) (succ v)) (fun rs => Ok (mix v rs)).

(** computeHash (lines 546-590). *)
Definition compute_hash (t : table) (ord : list V) (ambiguous : bool) : res H :=
  if ambiguous then Ok poison
  else bind (map_res (topo_hash t ord) ord) (fun hs => Ok (sum hs)).

(** buildCompilerRecursiveGroup after its checks (lines 471-516), without the
    installation. *)
Definition build (t : table) (ms : list V) : res group :=
  bind (visit (S (length ms)) ms (fst (root_of ms)) []) (fun ord =>
  if Nat.eqb (length ord) (length ms) then
    bind (compute_hash t ord (snd (root_of ms))) (fun h => Ok (Group ord h))
  else Bad Lost).

(** The part of _computeHashAndInstall that holds the lock (lines 134-160). *)
Definition install (t : table) (g : group) : table :=
  t ++ map (fun v => (v, g)) (filter (fun v => negb (installed t v)) (order g)).

(* -------------------------------------------------------------- *)
(** * Searching *)

(** An element of mGroups and one of mGroupOutboundEdges. The edges are a
    stack, whose top is the first element. *)
Record frame : Type := Frame { members : list V; edges : list V }.

(** MutuallyRecursiveTypeGroupSearch. The top of the stack of frames is the
    first element. [built] is a group that is hashed but not yet installed:
    other threads may run in between, since visiting an object may run
    Python code. *)
Record search : Type :=
  Search { considered : list V; frames : list frame; built : option group }.

(** pushGroup (lines 660-698). The code looks at the table once for each
    object seen; here it is looked at once, and an object taken in between is
    skipped when its edge is popped. *)
Definition push (t : table) (s : search) (o : V) : res search :=
  if mem o (considered s) then Bad Again
  else
    Ok (Search (o :: considered s)
          (Frame [o] (rev (filter (fun w => negb (taken t w)) (succ o))) :: frames s)
          None).

Definition join (lower upper : frame) : frame :=
  Frame (fold_left insert (members upper) (members lower))
    (edges upper ++ edges lower).

(** The loop that merges frames (lines 731-749). *)
Fixpoint merge (o : V) (f : frame) (rest : list frame) : res (list frame) :=
  if mem o (members f) then Ok (f :: rest)
  else match rest with
       | [] => Bad Parent
       | g :: rest => merge o (join g f) rest
       end.

(** The end of a frame (lines 711-716). *)
Definition pop (s : search) : search :=
  match frames s with
  | [] => s
  | f :: rest =>
      Search (filter (fun v => negb (mem v (members f))) (considered s)) rest None
  end.

(** doOneStep (lines 706-752), in two steps where a group is built: first the
    checks of buildCompilerRecursiveGroup (lines 446-469) and the building,
    then the installation. *)
Definition one_step (t : table) (s : search) : res (table * search) :=
  match built s, frames s with
  | Some g, _ => Ok (install t g, pop s)
  | None, [] => Ok (t, s)
  | None, f :: rest =>
      match edges f with
      | [] =>
          if existsb (taken t) (members f) then
            if forallb (taken t) (members f) then Ok (t, pop s) else Bad Partial
          else
            bind (build t (members f)) (fun g =>
            Ok (t, Search (considered s) (frames s) (Some g)))
      | o :: es =>
          let s' := Search (considered s) (Frame (members f) es :: rest) None in
          if taken t o then Ok (t, s')
          else if mem o (considered s) then
            bind (merge o (Frame (members f) es) rest) (fun fs =>
            Ok (t, Search (considered s) fs None))
          else bind (push t s' o) (fun s' => Ok (t, s'))
      end
  end.

(* -------------------------------------------------------------- *)
(** * Threads *)

(** What all threads share, and the searches that were ever begun. *)
Record world : Type := World { groups : table; searches : list search }.

(** A call of ensureRecursiveTypeGroup begins (lines 766-791), or the search
    that was begun as number k goes on. *)
Inductive event : Type :=
| Start (root : V)
| Step (k : nat).

Fixpoint set_nth {X : Type} (k : nat) (x : X) (xs : list X) : list X :=
  match xs, k with
  | [], _ => []
  | _ :: xs, O => x :: xs
  | y :: xs, S k => y :: set_nth k x xs
  end.

Definition happen (w : world) (e : event) : res world :=
  match e with
  | Start root =>
      bind (push (groups w) (Search [] [] None) root) (fun s =>
      Ok (World (groups w) (searches w ++ [s])))
  | Step k =>
      match nth_error (searches w) k with
      | None => Ok w
      | Some s =>
          bind (one_step (groups w) s) (fun ts =>
          Ok (World (fst ts) (set_nth k (snd ts) (searches w))))
      end
  end.

Fixpoint history (w : world) (es : list event) : res world :=
  match es with
  | [] => Ok w
  | e :: es => bind (happen w e) (fun w => history w es)
  end.

End Model.

Arguments frame V : clear implicits.
Arguments ref V H : clear implicits.
Arguments group V H : clear implicits.
Arguments table V H : clear implicits.
Arguments search V H : clear implicits.
Arguments world V H : clear implicits.
