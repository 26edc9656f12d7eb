(** Model of compiler/directed_graph.py and compiler/function_dependency_graph.py.

    Nodes are any hashable values, given by a type with an equality test.  A set is the list of its
    elements; where the code iterates over a set, [order] gives the (unknown) order.  Python's limit on
    the depth of recursion is not modelled: [levels] and [createsCycle] raise RecursionError on chains of
    several hundred nodes. *)
From Verif Require Import Base.
Open Scope Z_scope.
Open Scope result_scope.

Section Graph.
  Context {node : Type}.
  Variable eqb : node -> node -> bool.
  Variable order : list node -> list node.

  (** ** Python sets and dicts *)
  Definition s_mem (x : node) (s : list node) : bool := existsb (eqb x) s.
  Definition s_add (x : node) (s : list node) : list node := if s_mem x s then s else s ++ [x].
  Definition s_discard (x : node) (s : list node) : list node := filter (fun y => negb (eqb x y)) s.
  Fixpoint d_get {V} (d : list (node * V)) (x : node) : option V :=
    match d with
    | [] => None
    | (y, v) :: d => if eqb x y then Some v else d_get d x
    end.
  Fixpoint d_set {V} (d : list (node * V)) (x : node) (v : V) : list (node * V) :=
    match d with
    | [] => [(x, v)]
    | (y, w) :: d => if eqb x y then (y, v) :: d else (y, w) :: d_set d x v
    end.
  Definition d_del {V} (d : list (node * V)) (x : node) : list (node * V) := filter (fun p => negb (eqb x (fst p))) d.

  (** ** DirectedGraph *)
  Record graph := { sourceToDest : list (node * list node); destToSource : list (node * list node) }.
  Definition empty_graph : graph := {| sourceToDest := []; destToSource := [] |}.          (* directed_graph.py:22-24 *)

  (** directed_graph.py:47-51, 42-45 *)
  Definition outgoing (g : graph) (n : node) : list node := match d_get (sourceToDest g) n with Some s => s | None => [] end.
  Definition incoming (g : graph) (n : node) : list node := match d_get (destToSource g) n with Some s => s | None => [] end.
  Definition has_edge (g : graph) (source dest : node) : bool :=
    match d_get (sourceToDest g) source with None => false | Some s => s_mem dest s end.

  (** [addEdge], 26-29: [setdefault] stores an empty set even if the edge is then found. *)
  Definition add_edge (source dest : node) (g : graph) : graph :=
    let s := outgoing g source in
    if s_mem dest s then {| sourceToDest := d_set (sourceToDest g) source s; destToSource := destToSource g |}
    else {| sourceToDest := d_set (sourceToDest g) source (s_add dest s);
            destToSource := d_set (destToSource g) dest (s_add source (incoming g dest)) |}.
  (** [discardEdge], 36-40, and [dropEdge], 31-34 *)
  Definition discard_edge (source dest : node) (g : graph) : graph :=
    {| sourceToDest := match d_get (sourceToDest g) source with
                       | Some s => d_set (sourceToDest g) source (s_discard dest s)
                       | None => sourceToDest g
                       end;
       destToSource := match d_get (destToSource g) dest with
                       | Some s => d_set (destToSource g) dest (s_discard source s)
                       | None => destToSource g
                       end |}.
  Definition drop_edge (source dest : node) (g : graph) : result graph :=
    if has_edge g source dest then Ok (discard_edge source dest g) else Err GenericError.

  (** [dropNode], 53-68.  The first two loops run over the sets of the graph itself, and CPython raises
      an error when such a set has another size after a round; [watch] is the size. *)
  Fixpoint for_each (watch : graph -> nat) (body : node -> graph -> result graph) (l : list node) (g : graph) : result graph :=
    match l with
    | [] => Ok g
    | x :: l => g' <- body x g ;;
                if (watch g' =? watch g)%nat then for_each watch body l g' else Err GenericError
    end.
  Definition drop_node (n : node) (transitively : bool) (g : graph) : result graph :=
    g <- (if transitively then
            for_each (fun g => length (incoming g n))
              (fun i g => for_each (fun g => length (outgoing g n)) (fun o g => Ok (add_edge i o g)) (order (outgoing g n)) g)
              (order (incoming g n)) g
          else Ok g) ;;
    let g := fold_left (fun g i => discard_edge i n g) (order (incoming g n)) g in
    Ok (fold_left (fun g o => discard_edge n o g) (order (outgoing g n)) g).

  (** [levels], 70-99: -2 marks a node that is being walked.  The recursion visits each node once, so
      [fuel] does not run out when it exceeds the number of nodes (Graph_Proofs.v). *)
  Fixpoint walk_all (walk : node -> list (node * Z) -> result (Z * list (node * Z))) (l : list node) (m : Z)
      (levels : list (node * Z)) : result (Z * list (node * Z)) :=
    match l with
    | [] => Ok (m, levels)
    | c :: l => ' (v, levels) <- walk c levels ;; walk_all walk l (Z.max m v) levels
    end.
  Fixpoint walk (children : node -> list node) (fuel : nat) (n : node) (levels : list (node * Z)) : result (Z * list (node * Z)) :=
    match fuel with
    | O => Err OutOfFuel
    | S fuel =>
        levels <- match d_get levels n with
                  | Some _ => Ok levels
                  | None => ' (m, levels) <- walk_all (walk children fuel) (order (children n)) (-1) (d_set levels n (-2)) ;;
                            Ok (d_set levels n (1 + m))
                  end ;;
        match d_get levels n with
        | None => Err KeyError
        | Some v => if v =? -2 then Err GenericError else Ok (v, levels)
        end
    end.
  Fixpoint walk_each (walk : node -> list (node * Z) -> result (Z * list (node * Z))) (l : list node)
      (levels : list (node * Z)) : result (list (node * Z)) :=
    match l with
    | [] => Ok levels
    | c :: l => ' (_, levels) <- walk c levels ;; walk_each walk l levels
    end.
  (** The nodes that the graph knows. *)
  Definition nodes_of (g : graph) : list node := map fst (sourceToDest g) ++ map fst (destToSource g).
  Definition levels (g : graph) (reversed : bool) : result (list (node * Z)) :=
    let children := if reversed then outgoing g else incoming g in
    walk_each (walk children (S (length (nodes_of g)))) (nodes_of g) [].

  (** [topologicalSort], 101-105.  [sorted] is an insertion sort here: every stable sort gives the same
      list. *)
  Fixpoint insert_by {A} (lt : A -> A -> bool) (x : A) (l : list A) : list A :=
    match l with
    | [] => [x]
    | y :: l => if lt y x then y :: insert_by lt x l else x :: y :: l
    end.
  Definition sorted_by {A} (lt : A -> A -> bool) (l : list A) : list A := fold_right (insert_by lt) [] l.
  Fixpoint index_of (n : node) (l : list node) (i : Z) : Z :=                            (* {n: i for i, n in enumerate(nodes)}[n] *)
    match l with
    | [] => -1
    | x :: l => Z.max (if eqb n x then i else -1) (index_of n l (i + 1))
    end.
  Definition topological_sort (g : graph) (nodes : list node) (reversed : bool) : result (list node) :=
    lv <- levels g reversed ;;
    let key n := (match d_get lv n with Some l => l | None => 0 end, index_of n nodes 0) in
    Ok (sorted_by (fun a b => let (la, ia) := key a in let (lb, ib) := key b in (la <? lb) || ((la =? lb) && (ia <? ib))) nodes).

  (** [createsCycle], 107-125 *)
  Fixpoint reach_all (walk : node -> list node -> result (list node)) (l : list node) (seen : list node) : result (list node) :=
    match l with
    | [] => Ok seen
    | c :: l => seen <- walk c seen ;; reach_all walk l seen
    end.
  Fixpoint reach (g : graph) (fuel : nat) (n : node) (seen : list node) : result (list node) :=
    match fuel with
    | O => Err OutOfFuel
    | S fuel => if s_mem n seen then Ok seen else reach_all (reach g fuel) (order (outgoing g n)) (s_add n seen)
    end.
  Definition creates_cycle (g : graph) (source dest : node) : result bool :=
    if eqb source dest then Ok false
    else downstream <- reach g (S (S (length (nodes_of g)))) dest [] ;; Ok (s_mem source downstream).

  (** A history of calls that change a graph; those that raise leave it as it is. *)
  Inductive graph_op := AddEdge (source dest : node) | DropEdge (source dest : node) | DiscardEdge (source dest : node)
                      | DropNode (n : node) (transitively : bool).
  Definition graph_step (op : graph_op) (g : graph) : result graph :=
    match op with
    | AddEdge a b => Ok (add_edge a b g)
    | DropEdge a b => drop_edge a b g
    | DiscardEdge a b => Ok (discard_edge a b g)
    | DropNode n t => drop_node n t g
    end.
  Definition run_graph (ops : list graph_op) : graph :=
    fold_left (fun g op => match graph_step op g with Ok g => g | Err _ => g end) ops empty_graph.

  (** ** FunctionDependencyGraph *)

  (** [ordered] is the SortedSet with the key [pair[0]]: in ascending order, an equal key is put behind
      the others, and a pair that is there is not added again. *)
  Record work := { deps : graph; identity_levels : list (node * Z); dirty : list node; ordered : list (Z * node) }.
  Definition new_work : work := {| deps := empty_graph; identity_levels := []; dirty := []; ordered := [] |}.
  Fixpoint o_insert (p : Z * node) (l : list (Z * node)) : list (Z * node) :=
    match l with
    | [] => [p]
    | q :: l => if fst p <? fst q then p :: q :: l else q :: o_insert p l
    end.
  Definition o_add (p : Z * node) (l : list (Z * node)) : list (Z * node) :=
    if existsb (fun q => (fst p =? fst q) && eqb (snd p) (snd q)) l then l else o_insert p l.

  (** The lines of [markDirty] and [markDirtyWithLowPriority], function_dependency_graph.py:55-72, for a
      priority that depends on the level.  An unknown node is in the dirty set when the lookup fails. *)
  Definition mark_with (priority : Z -> Z) (n : node) (w : work) : work * result unit :=
    let w' l := {| deps := deps w; identity_levels := identity_levels w; dirty := s_add n (dirty w); ordered := l |} in
    match d_get (identity_levels w) n with
    | None => (w' (ordered w), Err KeyError)
    | Some level => (w' (o_add (priority level, n) (ordered w)), Ok tt)
    end.
  Definition mark_dirty (isNew : bool) : node -> work -> work * result unit :=
    mark_with (fun level => if isNew then 1000000 - level else level).
  Definition mark_dirty_low : node -> work -> work * result unit := mark_with (fun level => -1000000 + level).

  (** [getNextDirtyNode], 27-34 *)
  Fixpoint next_in (rev_ordered : list (Z * node)) (w : work) : work * option node :=
    match rev_ordered with
    | [] => ({| deps := deps w; identity_levels := identity_levels w; dirty := dirty w; ordered := [] |}, None)
    | (p, n) :: rest =>
        if s_mem n (dirty w)
        then ({| deps := deps w; identity_levels := identity_levels w; dirty := s_discard n (dirty w); ordered := rev rest |}, Some n)
        else next_in rest w
    end.
  Definition get_next_dirty_node (w : work) : work * option node := next_in (rev (ordered w)) w.

  (** [addRoot], 36-39, and [addEdge], 41-50 *)
  Definition add_root (n : node) (w : work) : work * result unit :=
    match d_get (identity_levels w) n with
    | Some _ => (w, Ok tt)
    | None => mark_dirty false n
                {| deps := deps w; identity_levels := d_set (identity_levels w) n 0; dirty := dirty w; ordered := ordered w |}
    end.
  Definition connect (caller callee : node) (w : work) : work :=
    {| deps := add_edge caller callee (deps w); identity_levels := identity_levels w; dirty := dirty w; ordered := ordered w |}.
  Definition work_add_edge (caller callee : node) (w : work) : work * result unit :=
    match d_get (identity_levels w) caller with
    | None => (w, Err GenericError)
    | Some level =>
        match d_get (identity_levels w) callee with
        | Some _ => (connect caller callee w, Ok tt)
        | None =>
            let '(w, r) := mark_dirty true callee
              {| deps := deps w; identity_levels := d_set (identity_levels w) callee (level + 1); dirty := dirty w; ordered := ordered w |} in
            match r with Err e => (w, Err e) | Ok _ => (connect caller callee w, Ok tt) end
        end
    end.

  (** [dropNode], 21-25 *)
  Definition work_drop_node (n : node) (w : work) : work * result unit :=
    match drop_node n false (deps w) with
    | Err e => (w, Err e)
    | Ok g => ({| deps := g; identity_levels := d_del (identity_levels w) n; dirty := s_discard n (dirty w); ordered := ordered w |}, Ok tt)
    end.

  (** [functionReturnSignatureChanged], 74-76 *)
  Fixpoint mark_each (l : list node) (w : work) : work * result unit :=
    match l with
    | [] => (w, Ok tt)
    | n :: l => let '(w, r) := mark_dirty false n w in match r with Err e => (w, Err e) | Ok _ => mark_each l w end
    end.
  Definition signature_changed (n : node) (w : work) : work * result unit := mark_each (order (incoming (deps w) n)) w.

  (** A history, and what each call gave. *)
  Inductive work_op := Root (n : node) | Edge (caller callee : node) | Drop (n : node) | MarkDirty (n : node) | MarkLow (n : node)
                     | Changed (n : node) | Next.
  Inductive response := Done (r : result unit) | Given (n : option node).
  Definition work_step (op : work_op) (w : work) : work * response :=
    let done (p : work * result unit) := (fst p, Done (snd p)) in
    match op with
    | Root n => done (add_root n w)
    | Edge a b => done (work_add_edge a b w)
    | Drop n => done (work_drop_node n w)
    | MarkDirty n => done (mark_dirty false n w)
    | MarkLow n => done (mark_dirty_low n w)
    | Changed n => done (signature_changed n w)
    | Next => let '(w, n) := get_next_dirty_node w in (w, Given n)
    end.
  Fixpoint run_work (ops : list work_op) (w : work) : work * list (work_op * response) :=
    match ops with
    | [] => (w, [])
    | op :: ops => let '(w, r) := work_step op w in let '(w, trace) := run_work ops w in (w, (op, r) :: trace)
    end.
End Graph.
Arguments graph : clear implicits.
Arguments work : clear implicits.
Arguments graph_op : clear implicits.
Arguments work_op : clear implicits.
Arguments response : clear implicits.
