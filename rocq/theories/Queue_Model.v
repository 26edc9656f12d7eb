(** Model of typed_python/typed_queue.py: the methods of TypedQueue as small-step programs of any
    number of threads over the two lists and the two locks.

    One step of a thread is one lock operation, or the straight-line code between two of them.  All of
    that code runs while the thread holds [_lock] (this is proved: [Queue_Proofs.v]), so a finer
    interleaving would not show more.  Locks have no owner: any thread may release one
    (_runtime.cpp:2407-2434), and releasing a lock that is not held is a fault.  Interrupts and
    failing memory allocation are not modelled. *)
From Verif Require Import Base PyList.
Open Scope Z_scope.

Section Queue.
  Context {T : Type}.

  Inductive op :=
  | Get | GetNonblocking | GetMany (minCount maxCount : Z)
  | Put (element : T) | PutMany (elementSeq : list T) | Peek | Len.

  Inductive answer :=
  | RValue (x : T) | ROption (x : option T) | RList (l : list T) | RInt (n : Z) | RNone.

  (** The members of the queue, typed_queue.py:10-13. *)
  Record shared := { pushable : list T; poppable : list T; lock : bool; isEmptyLock : bool }.

  (** Where a thread is.  [res] is the list of [getMany]. *)
  Inductive pc :=
  | Idle                                    (* not in a method *)
  | Acquire (o : op) (res : list T)         (* before [_lock.acquire()] *)
  | Inside (o : op) (res : list T)          (* holding [_lock], at the head of the loop, if any *)
  | WaitRelease (o : op) (res : list T)     (* the queue was empty, before [_lock.release()] *)
  | WaitEmpty (o : op) (res : list T)       (* before [_isEmptyLock.acquire()] of the wait *)
  | WaitEmptyRelease (o : op) (res : list T)(* before [_isEmptyLock.release()] of the wait *)
  | MarkEmpty (o : op) (res : list T) (x : T) (* holding [_lock], popped the last item [x], before [_isEmptyLock.acquire()] *)
  | Appending (rest : list T) (curLen : Z)  (* in the loop of [putMany] *)
  | Wake (rest : list T) (curLen : Z)       (* holding [_lock], before [_isEmptyLock.release()] of a put *)
  | Release (r : answer)                    (* before the last [_lock.release()] *)
  | Returned (r : answer).                  (* the method is over, its caller has not gone on yet *)

  Inductive event := Call (o : op) | Return (r : answer).

  (** What a step of a thread does: the new members and place, and what the caller sees. *)
  Inductive stepped :=
  | Blocked
  | Fault
  | Goes (s : shared) (p : pc) (e : option event).

  (** [_len], typed_queue.py:161-163. *)
  Definition len (s : shared) : Z := Z.of_nat (length (pushable s)) + Z.of_nat (length (poppable s)).

  Definition set_lists (s : shared) (push pop : list T) : shared :=
    {| pushable := push; poppable := pop; lock := lock s; isEmptyLock := isEmptyLock s |}.
  Definition set_lock (s : shared) (b : bool) : shared :=
    {| pushable := pushable s; poppable := poppable s; lock := b; isEmptyLock := isEmptyLock s |}.
  Definition set_empty (s : shared) (b : bool) : shared :=
    {| pushable := pushable s; poppable := poppable s; lock := lock s; isEmptyLock := b |}.

  (** [if not self._poppable and self._pushable: ...], typed_queue.py:33-36, 63-66, 106-109. *)
  Definition refill (s : shared) : shared :=
    match poppable s, pushable s with
    | [], _ :: _ => set_lists s [] (rev (pushable s))
    | _, _ => s
    end.

  (** [self._poppable.pop()]: the last element. *)
  Definition pop (s : shared) : option (T * shared) :=
    match rev (poppable s) with
    | [] => None
    | x :: rest => Some (x, set_lists s (pushable s) (rev rest))
    end.

  (** What a get that popped [x] does next: [if self._len == 0: self._isEmptyLock.acquire()]. *)
  Definition after_pop (o : op) (res : list T) (x : T) : pc :=
    match o with
    | Get => Release (RValue x)
    | GetNonblocking => Release (ROption (Some x))
    | _ => Inside o (res ++ [x])
    end.
  Definition take (o : op) (res : list T) (s : shared) : stepped :=
    match pop (refill s) with
    | None => match o with
              | GetNonblocking => Goes (refill s) (Release (ROption None)) None
              | _ => Fault                     (* [raise Exception("impossible")], typed_queue.py:78 *)
              end
    | Some (x, s) => if len s =? 0 then Goes s (MarkEmpty o res x) None else Goes s (after_pop o res x) None
    end.

  (** The code run while holding [_lock]. *)
  Definition inside (o : op) (res : list T) (s : shared) : stepped :=
    match o with
    | GetNonblocking => take o res s                                          (* typed_queue.py:33-49 *)
    | Get => if len s =? 0 then Goes s (WaitRelease o res) None else take o res s  (* 56-78 *)
    | GetMany minCount maxCount =>                                            (* 91-118 *)
        if Z.of_nat (length res) <? maxCount then
          if (len s =? 0) && (minCount <=? Z.of_nat (length res)) then Goes s (Release (RList res)) None
          else if len s =? 0 then Goes s (WaitRelease o res) None
          else take o res s
        else Goes s (Release (RList res)) None
    | Put x =>                                                                (* 126-130 *)
        let s := set_lists s (pushable s ++ [x]) (poppable s) in
        if len s =? 1 then Goes s (Wake [] 1) None else Goes s (Release RNone) None
    | PutMany l => Goes s (Appending l (len s)) None                          (* 137 *)
    | Peek =>                                                                 (* 151-154 *)
        Goes s (Release (ROption match rev (poppable s) with
                                 | x :: _ => Some x
                                 | [] => match pushable s with x :: _ => Some x | [] => None end
                                 end)) None
    | Len => Goes s (Release (RInt (len s))) None                             (* 159 *)
    end.

  (** One step of a thread that is in the place [p]; [next] is the method its program calls next. *)
  Definition tstep (s : shared) (p : pc) (next : option op) : stepped :=
    match p with
    | Idle => match next with Some o => Goes s (Acquire o []) (Some (Call o)) | None => Blocked end
    | Acquire o res => if lock s then Blocked else Goes (set_lock s true) (Inside o res) None
    | Inside o res => inside o res s
    | WaitRelease o res => if lock s then Goes (set_lock s false) (WaitEmpty o res) None else Fault
    | WaitEmpty o res => if isEmptyLock s then Blocked else Goes (set_empty s true) (WaitEmptyRelease o res) None
    | WaitEmptyRelease o res => if isEmptyLock s then Goes (set_empty s false) (Acquire o res) None else Fault
    | MarkEmpty o res x => if isEmptyLock s then Blocked else Goes (set_empty s true) (after_pop o res x) None
    | Appending [] _ => Goes s (Release RNone) None
    | Appending (x :: rest) curLen =>                                         (* 139-146 *)
        let s := set_lists s (pushable s ++ [x]) (poppable s) in
        if curLen + 1 =? 1 then Goes s (Wake rest (curLen + 1)) None else Goes s (Appending rest (curLen + 1)) None
    | Wake rest curLen => if isEmptyLock s then Goes (set_empty s false) (Appending rest curLen) None else Fault
    | Release r => if lock s then Goes (set_lock s false) (Returned r) None else Fault
    | Returned r => Goes s Idle (Some (Return r))
    end.

  (** A thread: its place and the methods it still calls. *)
  Definition thread : Type := pc * list op.
  Record state := { members : shared; threads : list thread }.

  (** [__init__], typed_queue.py:15-26. *)
  Definition new_queue : shared := {| pushable := []; poppable := []; lock := false; isEmptyLock := true |}.
  Definition start (programs : list (list op)) : state :=
    {| members := new_queue; threads := map (fun p => (Idle, p)) programs |}.

  Definition rest_of (p : pc) (program : list op) : list op :=
    match p with Idle => tl program | _ => program end.

  (** Thread [t] takes a step. *)
  Definition step (t : nat) (s : state) : result (option (state * option event)) :=
    match nth_error (threads s) t with
    | None => Ok None
    | Some (p, program) =>
        match tstep (members s) p (hd_error program) with
        | Blocked => Ok None
        | Fault => Err UndefinedBehaviour
        | Goes m p' e => Ok (Some ({| members := m; threads := replace_nth t (p', rest_of p program) (threads s) |}, e))
        end
    end.

  (** A run along a schedule: the thread numbers in the order they step.  A blocked thread's turn does
      nothing.  The history is what the callers saw. *)
  Fixpoint run (schedule : list nat) (s : state) : result (state * list (nat * event)) :=
    match schedule with
    | [] => Ok (s, [])
    | t :: schedule =>
        match step t s with
        | Err e => Err e
        | Ok None => run schedule s
        | Ok (Some (s, e)) =>
            match run schedule s with
            | Err e => Err e
            | Ok (s', h) => Ok (s', match e with Some e => (t, e) :: h | None => h end)
            end
        end
    end.
End Queue.
Arguments op T : clear implicits.
Arguments answer T : clear implicits.
Arguments shared T : clear implicits.
Arguments pc T : clear implicits.
Arguments event T : clear implicits.
Arguments stepped T : clear implicits.
Arguments thread T : clear implicits.
Arguments state T : clear implicits.
