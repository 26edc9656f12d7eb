(** What a concurrent FIFO queue is supposed to be: an abstract machine whose operations take effect at
    one instant between their call and their return ([getMany]: at one instant for every item).
    Nothing here mentions locks. *)
From Verif Require Import Base PyList Queue_Model.
Open Scope Z_scope.

Section Atomic.
  Context {T : Type}.

  (** An abstract thread: not in an operation, in an operation that has not taken effect ([res] is what
      a [getMany] has taken so far), or past it. *)
  Inductive athread :=
  | AIdle
  | APending (o : op T) (res : list T)
  | ADone (r : answer T).

  (** The effect of an operation on the queue: the new queue and the thread's new place. *)
  Inductive effect : list T -> op T -> list T -> list T -> athread -> Prop :=
  | e_get x q res : effect (x :: q) Get res q (ADone (RValue x))
  | e_nonblocking_some x q res : effect (x :: q) GetNonblocking res q (ADone (ROption (Some x)))
  | e_nonblocking_none res : effect [] GetNonblocking res [] (ADone (ROption None))
  | e_take x q mn mx res : Z.of_nat (length res) < mx ->
      effect (x :: q) (GetMany mn mx) res q (APending (GetMany mn mx) (res ++ [x]))
  | e_enough q mn mx res : mx <= Z.of_nat (length res) -> effect q (GetMany mn mx) res q (ADone (RList res))
  | e_empty mn mx res : mn <= Z.of_nat (length res) -> effect [] (GetMany mn mx) res [] (ADone (RList res))
  | e_put q x res : effect q (Put x) res (q ++ [x]) (ADone RNone)
  | e_putmany q l res : effect q (PutMany l) res (q ++ l) (ADone RNone)
  | e_peek q res : effect q Peek res q (ADone (ROption (hd_error q)))
  | e_len q res : effect q Len res q (ADone (RInt (Z.of_nat (length q)))).

  Record astate := { queue : list T; athreads : list (athread * list (op T)) }.

  (** One step: a call, an effect (invisible to the callers) or a return. *)
  Inductive astep : astate -> option (nat * event T) -> astate -> Prop :=
  | a_call q ths t o program :
      nth_error ths t = Some (AIdle, o :: program) ->
      astep {| queue := q; athreads := ths |} (Some (t, Call o))
            {| queue := q; athreads := replace_nth t (APending o [], program) ths |}
  | a_effect q ths t o res program q' a :
      nth_error ths t = Some (APending o res, program) -> effect q o res q' a ->
      astep {| queue := q; athreads := ths |} None {| queue := q'; athreads := replace_nth t (a, program) ths |}
  | a_return q ths t r program :
      nth_error ths t = Some (ADone r, program) ->
      astep {| queue := q; athreads := ths |} (Some (t, Return r))
            {| queue := q; athreads := replace_nth t (AIdle, program) ths |}.

  Inductive aruns : astate -> list (nat * event T) -> astate -> Prop :=
  | ar_nil s : aruns s [] s
  | ar_step s1 e s2 h s3 : astep s1 e s2 -> aruns s2 h s3 ->
      aruns s1 (match e with Some e => e :: h | None => h end) s3.

  Definition astart (programs : list (list (op T))) : astate :=
    {| queue := []; athreads := map (fun p => (AIdle, p)) programs |}.
End Atomic.

(** ** Reading a history *)
Section Reading.
  Context {T : Type}.

  (** What the queue holds, oldest first. *)
  Definition contents (m : shared T) : list T := rev (poppable m) ++ pushable m.

  Definition items_put (o : op T) : list T :=
    match o with Put x => [x] | PutMany l => l | _ => [] end.
  (** What an answer took out of the queue, if it is not the answer of [peek]. *)
  Definition items_got (r : answer T) : list T :=
    match r with RValue x | ROption (Some x) => [x] | RList l => l | _ => [] end.

  (** What thread [t] put and got in a history, in its own order. *)
  Definition put_by (t : nat) (h : list (nat * event T)) : list T :=
    flat_map (fun e => if (fst e =? t)%nat then match snd e with Call o => items_put o | Return _ => [] end else []) h.
  Definition got_by (t : nat) (h : list (nat * event T)) : list T :=
    flat_map (fun e => if (fst e =? t)%nat then match snd e with Call _ => [] | Return r => items_got r end else []) h.

  (** The entries of thread [t] in a list of labelled items. *)
  Definition of_thread (t : nat) (l : list (nat * T)) : list T :=
    map snd (filter (fun e => (fst e =? t)%nat) l).

  Definition between_calls (th : thread T) : Prop := fst th = Idle.

  (** ** Liveness *)
  Definition finished (th : thread T) : Prop := th = (Idle, []).
  (** In [get], or in [getMany] with fewer than [minCount] items so far, waiting for an item. *)
  Definition waits_for_item (th : thread T) : Prop :=
    exists o res program, th = (WaitEmpty o res, program) /\
      (o = Get \/ exists mn mx, o = GetMany mn mx /\ Z.of_nat (length res) < mn).

  (** The number of turns of a schedule in which the thread whose turn it is does something. *)
  Fixpoint moves (schedule : list nat) (s : state T) : nat :=
    match schedule with
    | [] => O
    | t :: schedule => match step t s with
                       | Ok (Some (s', _)) => S (moves schedule s')
                       | _ => moves schedule s
                       end
    end.

  (** No thread can do anything. *)
  Definition stuck (s : state T) : Prop := forall t, step t s = Ok None.

  (** A part of a schedule in which each of [n] threads has at least one turn. *)
  Definition fair_round (n : nat) (round : list nat) : Prop := forall t, (t < n)%nat -> In t round.

  (** Programs that only get one item at a time, or that only put and look. *)
  Definition is_get (o : op T) : Prop := o = Get.
  Definition is_put (o : op T) : Prop := match o with Put _ | PutMany _ | Len | Peek => True | _ => False end.
  Definition number_put (programs : list (list (op T))) : nat := length (flat_map items_put (concat programs)).
  Definition number_gets (programs : list (list (op T))) : nat :=
    length (filter (fun o => match o with Get => true | _ => false end) (concat programs)).
End Reading.
