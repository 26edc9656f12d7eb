(** What a user expects of instances: an instance has the attributes that its class declares, each with a value or
    without one.  Property C68. *)
From Verif Require Import Base Class_Model Class_Spec Inst_Model.
From Coq Require Import String.
Open Scope string_scope.
Open Scope list_scope.

(** The attributes that have a value. *)
Definition attributes := string -> option value.
Definition change (f : attributes) (n : string) (x : option value) : attributes :=
  fun k => if String.eqb n k then x else f k.
Definition declared (ms : list member) (n : string) : Prop := In n (map m_name ms).
Definition declares (ms : list member) (n : string) : bool := existsb (fun m => String.eqb (m_name m) n) ms.
Definition nonempty (ms : list member) (n : string) : bool := existsb (fun m => String.eqb (m_name m) n && m_nonempty m) ms.

(** A new instance: the default value, or the value that the type makes if it makes one by itself or the member must
    not be empty. *)
Definition initial (T : types) (m : member) : outcome (option value) :=
  match default_of T m with
  | Some v => Gives (Some v)
  | None => if wants T m || m_nonempty m then v <~ fresh T m ; Gives (Some v) else Gives None
  end.
Fixpoint start (T : types) (ms : list member) : outcome attributes :=
  match ms with
  | nil => Gives (fun _ => None)
  | m :: r => x <~ initial T m ; f <~ start T r ; Gives (change f (m_name m) x)
  end.

Definition set_attr (ms : list member) (f : attributes) (n : string) (v : value) : outcome attributes :=
  if declares ms n then Gives (change f n (Some v)) else AttributeError.
Definition del_attr (ms : list member) (f : attributes) (n : string) : outcome attributes :=
  if nonempty ms n then AttributeError
  else match f n with Some _ => Gives (change f n None) | None => AttributeError end.
Definition get_attr (f : attributes) (n : string) : outcome value :=
  match f n with Some v => Gives v | None => AttributeError end.
Fixpoint set_attrs (ms : list member) (kwargs : list (string * value)) (f : attributes) : outcome attributes :=
  match kwargs with
  | nil => Gives f
  | (n, v) :: r => g <~ set_attr ms f n v ; set_attrs ms r g
  end.
Definition equal_attr (T : types) (f g : attributes) (m : member) : bool :=
  match f (m_name m), g (m_name m) with
  | Some v, Some u => same T m v u
  | None, None => true
  | _, _ => false
  end.

(** The same program on such instances.  It does not matter which code does an operation, which class it takes the
    instance for, or what was in memory. *)
Definition ideal_heap := list (nat * option attributes).
Definition ideal_put (h : ideal_heap) (i c : nat) (f : option attributes) : ideal_heap := firstn i h ++ (c, f) :: skipn (S i) h.
Definition ideal_with (h : ideal_heap) (i : nat) (k : nat -> attributes -> ideal_heap * answer) : ideal_heap * answer :=
  match nth_error h i with Some (c, Some f) => k c f | _ => (h, Failure GenericError) end.
Definition ideal_changed (h : ideal_heap) (i c : nat) (r : outcome attributes) : ideal_heap * answer :=
  match r with
  | Gives f => (ideal_put h i c (Some f), Nothing)
  | AttributeError => (h, NoAttribute)
  | Raises e => (h, Failure e)
  end.
Definition ideal_added (h : ideal_heap) (c : nat) (r : outcome attributes) : ideal_heap * answer :=
  match r with
  | Gives f => (h ++ [(c, Some f)], Nothing)
  | AttributeError => (h, NoAttribute)
  | Raises e => (h, Failure e)
  end.
Definition ideal_op (T : types) (w : world) (h : ideal_heap) (p : op) : ideal_heap * answer :=
  match p with
  | New _ c _ kwargs => ideal_added h c (f <~ start T (members_of w c) ; set_attrs (members_of w c) kwargs f)
  | Get i n | CompiledGet _ i n => ideal_with h i (fun _ f => (h, to_answer Value (get_attr f n)))
  | CompiledHas _ i n => ideal_with h i (fun _ f => (h, Truth (match f n with Some _ => true | None => false end)))
  | Set_ i n v | CompiledSet _ i n v => ideal_with h i (fun c f => ideal_changed h i c (set_attr (members_of w c) f n v))
  | Del i n | CompiledDel _ i n => ideal_with h i (fun c f => ideal_changed h i c (del_attr (members_of w c) f n))
  | Copy _ i _ | DeepCopy i _ | Send i _ => ideal_with h i (fun c f => (h ++ [(c, Some f)], Nothing))
  | Assign _ i j => ideal_with h i (fun c _ => ideal_with h j (fun _ g => (ideal_put h i c (Some g), Nothing)))
  | Equal i j => ideal_with h i (fun c f => ideal_with h j (fun _ g => (h, Truth (forallb (equal_attr T f g) (members_of w c)))))
  | Drop i => ideal_with h i (fun c _ => (ideal_put h i c None, Nothing))
  end.
Fixpoint ideal_ops (T : types) (w : world) (h : ideal_heap) (ps : list op) : ideal_heap * list answer :=
  match ps with
  | nil => (h, nil)
  | p :: r => let (h1, a) := ideal_op T w h p in let (h2, l) := ideal_ops T w h1 r in (h2, a :: l)
  end.

(** ** Operations that make sense *)

(** Values have the size of the member's type. *)
Definition fits (ms : list member) (n : string) (v : value) : Prop :=
  forall m, In m ms -> m_name m = n -> List.length v = size_of m.
Definition types_fit (T : types) : Prop := forall m,
  (forall v, default_of T m = Some v -> List.length v = size_of m) /\
  (forall v, fresh T m = Gives v -> List.length v = size_of m).
Definition room (w : world) (c : nat) (memory : list Z) : Prop := List.length memory = bytecount (members_of w c).

(** Compiled code takes an instance of class [c] for one of [A] only if [c] inherits from [A], and uses the data
    members of [A]. *)
Definition seen_as (w : world) (h : ideal_heap) (A i : nat) (n : string) : Prop :=
  forall c f, nth_error h i = Some (c, Some f) -> ancestor (bases_of w) c A /\ declared (members_of w A) n.

(** Constructors in compiled code: members that have default values are constructed anyway. *)
Definition defaults_seen (T : types) (ms : list member) : Prop :=
  forall m, In m ms -> default_of T m <> None -> wants T m = true \/ m_nonempty m = true.

(** Assignment: where the source has a value the target has one too. *)
Definition no_new_values (h : ideal_heap) (i j : nat) : Prop :=
  forall c f d g, nth_error h i = Some (c, Some f) -> nth_error h j = Some (d, Some g) ->
    c = d /\ forall n, g n <> None -> f n <> None.
Definition same_class (h : ideal_heap) (i j : nat) : Prop :=
  forall c f d g, nth_error h i = Some (c, Some f) -> nth_error h j = Some (d, Some g) -> c = d.

Definition sensible (T : types) (w : world) (h : ideal_heap) (p : op) : Prop :=
  match p with
  | New compiled c memory kwargs =>
      room w c memory /\ (forall n v, In (n, v) kwargs -> fits (members_of w c) n v) /\
      (compiled = true -> defaults_seen T (members_of w c))
  | Get _ _ | Del _ _ | Drop _ => True
  | Set_ i n v => forall c f, nth_error h i = Some (c, Some f) -> fits (members_of w c) n v
  | CompiledGet A i n | CompiledHas A i n | CompiledDel A i n => seen_as w h A i n
  | CompiledSet A i n v => seen_as w h A i n /\ fits (members_of w A) n v
  | Copy _ i memory | Send i memory => forall c f, nth_error h i = Some (c, Some f) -> room w c memory
  | DeepCopy i memory =>
      forall c f, nth_error h i = Some (c, Some f) ->
        room w c memory /\ firstn (init_bytes (members_of w c)) memory = repeat 0%Z (init_bytes (members_of w c))
  | Assign _ i j => no_new_values h i j
  | Equal i j => same_class h i j
  end.
Fixpoint all_sensible (T : types) (w : world) (h : ideal_heap) (ps : list op) : Prop :=
  match ps with
  | nil => True
  | p :: r => sensible T w h p /\ all_sensible T w (fst (ideal_op T w h p)) r
  end.
