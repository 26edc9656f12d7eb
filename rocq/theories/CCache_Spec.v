(** What the compiler cache is to do, apart from how it does it. *)
From Verif Require Import Base CCache_Model.

(** The directory of a hash has the module: it is there under its final name, and each of the nine files is there and
    has all of its contents. *)
Definition has_module (d : disk) (h : nat) (m : module) : Prop :=
  In (Final h, map (fun f => (f, Some m)) all_files) (dirs d).
(** A module can be offered: neither it nor any module that it needs, however indirectly, is marked invalid. *)
Inductive usable (d : disk) : nat -> Prop :=
| usable_intro h m : has_module d h m -> ~ In h (marks d) -> (forall g, In g (subs m) -> usable d g) -> usable d h.
(** One module needs another, at one or more removes. *)
Inductive needs (d : disk) : nat -> nat -> Prop :=
| needs_one h m g : has_module d h m -> In g (subs m) -> needs d h g
| needs_more h m g k : has_module d h m -> In g (subs m) -> needs d g k -> needs d h k.
(** A module that a process cannot load. *)
Definition bad (d : disk) (ok : module -> bool) (h : nat) : Prop := exists m, has_module d h m /\ ok m = false.
