(** Model of typed_python/HashAccumulator.hpp:20-80: the 32-bit hash that containers are built
    from. *)
From Verif Require Import Base.
Open Scope Z_scope.

(** [HashAccumulator::add], HashAccumulator.hpp:30-32.  The multiplication wraps at 32 bits (it is
    a signed overflow, which the compilers used give that meaning). *)
Definition acc_add (state i : Z) : Z := Z.lxor (wrap_s 32 (state * 1000003)) i.

(** The loop [for each x: acc.add(x)] that every container hash runs. *)
Definition acc_all (state : Z) (l : list Z) : Z := fold_left acc_add l state.

(** A finished hash of -1 is replaced by -2, e.g. ConstDictType.cpp:188-190. *)
Definition finish_hash (h : Z) : Z := if h =? -1 then -2 else h.
