(** What a user expects of method calls in compiled code: the class of the object decides what runs, whatever class
    the object is known as.  Property C69. *)
From Verif Require Import Base Class_Model Class_Spec Disp_Model.
Open Scope list_scope.

(** Variables: the class that the object is known as, and its own class.  Call sites: class and signature. *)
Record ideal := Ideal { i_world : world; i_vars : list (nat * nat); i_sites : list (nat * Z) }.

Definition ideal_step (st : ideal) (p : op) : ideal * answer :=
  let w := i_world st in
  let add_var := fun a c => Ideal w (i_vars st ++ [(a, c)]) (i_sites st) in
  match p with
  | ClassStatement bases b =>
      match make w bases b with Ok w' => (Ideal w' (i_vars st) (i_sites st), Done) | Err e => (st, Failure e) end
  | Merge c => (Ideal (merge_again w c) (i_vars st) (i_sites st), Done)
  | Load a s => (Ideal w (i_vars st) (i_sites st ++ [(a, s)]), Done)
  | Create c _ => (add_var c c, Done)
  | Receive a c _ => if is_subclass w c a then (add_var a c, Done) else (st, Failure GenericError)
  | Cast x b =>
      match nth_error (i_vars st) x with
      | Some (a, c) => if is_subclass w c b then (add_var b c, Truth true) else (st, Truth false)
      | None => (st, Failure GenericError)
      end
  | Call site x _ =>
      match nth_error (i_vars st) x, nth_error (i_sites st) site with
      | Some (a, c), Some (a', s) => if Nat.eqb a a' then (add_var c c, Ran c s) else (st, Failure GenericError)
      | _, _ => (st, Failure GenericError)
      end
  | CallOnType site c _ =>
      match nth_error (i_sites st) site with
      | Some (_, s) => (st, Ran c s)
      | None => (st, Failure GenericError)
      end
  | Force _ _ _ => (st, Done)
  end.
Fixpoint ideal_run (st : ideal) (ps : list op) : ideal * list answer :=
  match ps with
  | nil => (st, nil)
  | p :: r => let (st1, a) := ideal_step st p in let (st2, l) := ideal_run st1 r in (st2, a :: l)
  end.
Definition ideal_nothing : ideal := Ideal nil nil nil.

(** ** Operations that make sense *)

(** Objects are at addresses of 48 bits that no other object has. *)
Definition free (used : list Z) (address : Z) : Prop := (0 <= address < 281474976710656)%Z /\ ~ In address used.
Definition exists_class (w : world) (c : nat) : Prop := (c < List.length w)%nat.
Definition classes_exist (w : world) (loads : list (nat * Z)) : Prop := forall a s, In (a, s) loads -> exists_class w a.

(** No base twice in a statement, and fewer than 65535 classes in an order.  Compiled code knows only classes that
    exist, and a class that it knows as a subclass of another is one. *)
Definition sensible (st : ideal) (used : list Z) (p : op) : Prop :=
  let w := i_world st in
  match p with
  | ClassStatement bases b =>
      NoDup bases /\ forall w' k, make w bases b = Ok w' -> nth_error w' (List.length w) = Some k -> (Z.of_nat (List.length (c_mro k)) < 65535)%Z
  | Merge _ => True
  | Load a _ => exists_class w a
  | Create c address => exists_class w c /\ free used address
  | Receive a c address => exists_class w c /\ free used address
  | Cast x b => exists_class w b
  | Call _ _ loads => classes_exist w loads
  | CallOnType site c loads =>
      classes_exist w loads /\ forall a s, nth_error (i_sites st) site = Some (a, s) -> ancestor (bases_of w) c a
  | Force _ _ loads => classes_exist w loads
  end.
Definition uses (p : op) : list Z := match p with Create _ address | Receive _ _ address => [address] | _ => nil end.
Fixpoint all_sensible (st : ideal) (used : list Z) (ps : list op) : Prop :=
  match ps with
  | nil => True
  | p :: r => sensible st used p /\ all_sensible (fst (ideal_step st p)) (uses p ++ used) r
  end.
