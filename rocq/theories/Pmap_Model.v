(** Model of typed_python/lib/pmap.py: any number of threads that call [pmap], the executor threads,
    and functions that call [pmap] themselves.

    The queues are atomic here: TypedQueue is proved to be one in [Queue_Props.v] ([getMany] takes its
    items one at a time).  One step of a thread is one queue operation, one call of the mapped
    function up to its return or its own call of [pmap], or the bookkeeping between two of them.
    Not modelled: [work_queue] entries with a negative index (nothing in the module puts one),
    exceptions that are not [Exception], mapped functions that block or never return, and a second
    set of executor threads made by a race in [ensureThreads] (the number of executors is arbitrary). *)
From Verif Require Import Base PyList.

Section Pmap.
  (** Values and exceptions. *)
  Context {V E : Type}.

  Inductive outcome (A : Type) := Good (a : A) | Bad (e : E).
  Arguments Good {A} a.
  Arguments Bad {A} e.

  (** A computation that calls [pmap]: [Pmap bodies minGranularity k] calls it with the list of the
      computations [f(x)] and goes on with [k] of what the call returned or raised. *)
  Inductive body :=
  | Return (r : outcome V)
  | Pmap (bodies : list body) (minGranularity : Z) (k : outcome (list V) -> body).

  (** [os.cpu_count()] *)
  Variable cpu : Z.

  (** [jobGranularity], pmap.py:137. *)
  Definition granularity (n : nat) (minGranularity : Z) : nat :=
    Z.to_nat (Z.max (Z.max 1 (Z.of_nat n / (cpu * 30))) minGranularity).
  (** [jobCount], pmap.py:160-163. *)
  Definition job_count (n g : nat) : nat :=
    if (n / g * g <? n)%nat then S (n / g) else (n / g)%nat.

  (** The members of a [ListJob], pmap.py:45-52.  [slots] is the memory behind [outputPtr] with
      [isInitializedPtr].  [called] records the elements that the function was called with; the code
      has no such member. *)
  Record job :=
    { bodies : list body; gran : nat; slots : list (option V);
      outputQueue : list nat; exceptionQueue : list (nat * E); called : list nat }.
  Definition jobCount (jb : job) : nat := job_count (length (bodies jb)) (gran jb).
  (** The end of the range of chunk [i], pmap.py:66. *)
  Definition chunk_end (jb : job) (i : nat) : nat := Nat.min (length (bodies jb)) (S i * gran jb).

  (** [pmap.py:142-157]: [res], [isInitialized] and the job. *)
  Definition new_job (bs : list body) (minGranularity : Z) : job :=
    {| bodies := bs; gran := granularity (length bs) minGranularity; slots := repeat None (length bs);
       outputQueue := []; exceptionQueue := []; called := [] |}.

  (** Where a call of [pmap] is: filling the queue (165-167, the next index), working (173-186),
      blocked in [getMany] (179, 189, the items so far). *)
  Inductive phase := Pushing (i : nat) | Draining | Waiting (taken : list nat).

  Inductive activity :=
  | Running (b : body)
  | Calling (j : nat) (p : phase) (k : outcome (list V) -> body)
  | Ending.                     (* before [outputQueue.put(i)], pmap.py:72 *)

  (** A running [execute(i)] of job [j] at the index [ix] (pmap.py:64-72), or the program of a thread
      that is not an executor. *)
  Inductive frame :=
  | Exec (j i ix : nat) (a : activity)
  | Main (program : body) (a : activity).

  Record thread := { executor : bool; stack : list frame }.
  Record state := { jobs : list job; work : list (nat * nat); threads : list thread }.

  Definition set_act (f : frame) (a : activity) : frame :=
    match f with Exec j i ix _ => Exec j i ix a | Main p _ => Main p a end.
  Definition act_of (f : frame) : activity := match f with Exec _ _ _ a => a | Main _ a => a end.

  Definition get_job (js : list job) (j : nat) : result job :=
    match nth_error js j with Some jb => Ok jb | None => Err UndefinedBehaviour end.

  Open Scope result_scope.

  (** Going on with element [ix] of chunk [i] if it is in the range: [self.f(self.inputPtr[jobIx])]. *)
  Definition at_element (j i ix : nat) (jb : job) : result (job * frame) :=
    if (ix <? chunk_end jb i)%nat then
      match nth_error (bodies jb) ix with
      | None => Err UndefinedBehaviour
      | Some b => Ok ({| bodies := bodies jb; gran := gran jb; slots := slots jb; outputQueue := outputQueue jb;
                         exceptionQueue := exceptionQueue jb; called := called jb ++ [ix] |},
                      Exec j i ix (Running b))
      end
    else Ok (jb, Exec j i ix Ending).

  (** [(self.outputPtr + jobIx).initialize(...)], pmap.py:67-68: an object that is there already would
      be lost. *)
  Definition initialize (jb : job) (ix : nat) (v : V) : result job :=
    match nth_error (slots jb) ix with
    | Some None => Ok {| bodies := bodies jb; gran := gran jb; slots := replace_nth ix (Some v) (slots jb);
                         outputQueue := outputQueue jb; exceptionQueue := exceptionQueue jb; called := called jb |}
    | _ => Err UndefinedBehaviour
    end.
  Definition put_exception (jb : job) (ix : nat) (e : E) : job :=
    {| bodies := bodies jb; gran := gran jb; slots := slots jb; outputQueue := outputQueue jb;
       exceptionQueue := exceptionQueue jb ++ [(ix, e)]; called := called jb |}.
  Definition set_output (jb : job) (q : list nat) : job :=
    {| bodies := bodies jb; gran := gran jb; slots := slots jb; outputQueue := q;
       exceptionQueue := exceptionQueue jb; called := called jb |}.

  (** [execute(i)] from the start, pmap.py:66. *)
  Definition begin (js : list job) (j i : nat) : result (list job * frame) :=
    jb <- get_job js j ;;
    '(jb, f) <- at_element j i (i * gran jb) jb ;;
    Ok (replace_nth j jb js, f).

  (** pmap.py:191-200: the exception with the least index. *)
  Definition earliest (n : nat) (q : list (nat * E)) : nat * option E :=
    fold_left (fun acc ie => if (fst ie <? fst acc)%nat then (fst ie, Some (snd ie)) else acc) q (n, None).

  (** [res] when every cell is initialized. *)
  Fixpoint all_slots (l : list (option V)) : result (list V) :=
    match l with
    | [] => Ok []
    | Some v :: l => r <- all_slots l ;; Ok (v :: r)
    | None :: _ => Err UndefinedBehaviour
    end.

  (** pmap.py:191-213. *)
  Definition collect (jb : job) : result (outcome (list V)) :=
    match snd (earliest (length (bodies jb)) (exceptionQueue jb)) with
    | Some e => Ok (Bad e)
    | None => r <- all_slots (slots jb) ;; Ok (Good r)
    end.

  (** What the top frame [f] of a thread does: [None] if it is blocked or finished, otherwise the new
      jobs, the new work queue and the frames that replace [f]. *)
  Definition fstep (js : list job) (wq : list (nat * nat)) (ex : bool) (f : frame)
    : result (option (list job * list (nat * nat) * list frame)) :=
    match act_of f with
    | Running (Pmap bs mg k) =>
        Ok (Some (js ++ [new_job bs mg], wq, [set_act f (Calling (length js) (Pushing 0) k)]))
    | Running (Return r) =>
        match f with
        | Main _ _ => Ok None
        | Exec j i ix _ =>
            jb <- get_job js j ;;
            match r with
            | Good v =>
                jb <- initialize jb ix v ;;
                '(jb, f) <- at_element j i (S ix) jb ;;
                Ok (Some (replace_nth j jb js, wq, [f]))
            | Bad e => Ok (Some (replace_nth j (put_exception jb ix e) js, wq, [Exec j i ix Ending]))
            end
        end
    | Calling j (Pushing n) k =>
        jb <- get_job js j ;;
        if (n <? jobCount jb)%nat then Ok (Some (js, wq ++ [(j, n)], [set_act f (Calling j (Pushing (S n)) k)]))
        else if ex then Ok (Some (js, wq, [set_act f (Calling j Draining k)]))
        else Ok (Some (js, wq, [set_act f (Calling j (Waiting []) k)]))
    | Calling j Draining k =>
        match wq with
        | [] => Ok (Some (js, wq, [set_act f (Calling j (Waiting []) k)]))
        | (j', i) :: wq =>
            '(js, g) <- begin js j' i ;;
            Ok (Some (js, wq, [g; f]))
        end
    | Calling j (Waiting taken) k =>
        jb <- get_job js j ;;
        if (length taken <? jobCount jb)%nat then
          match outputQueue jb with
          | [] => Ok None
          | i :: q => Ok (Some (replace_nth j (set_output jb q) js, wq, [set_act f (Calling j (Waiting (taken ++ [i])) k)]))
          end
        else
          r <- collect jb ;;
          Ok (Some (js, wq, [set_act f (Running (k r))]))
    | Ending =>
        match f with
        | Main _ _ => Ok None
        | Exec j i _ _ =>
            jb <- get_job js j ;;
            Ok (Some (replace_nth j (set_output jb (outputQueue jb ++ [i])) js, wq, []))
        end
    end.

  (** One step of a thread: the top frame, or [work_queue.get()] of an executor with none (82-94). *)
  Definition tstep (js : list job) (wq : list (nat * nat)) (th : thread)
    : result (option (list job * list (nat * nat) * thread)) :=
    match stack th with
    | [] =>
        if executor th then
          match wq with
          | [] => Ok None
          | (j, i) :: wq =>
              '(js, f) <- begin js j i ;;
              Ok (Some (js, wq, {| executor := true; stack := [f] |}))
          end
        else Ok None
    | f :: rest =>
        r <- fstep js wq (executor th) f ;;
        match r with
        | None => Ok None
        | Some (js, wq, fs) => Ok (Some (js, wq, {| executor := executor th; stack := fs ++ rest |}))
        end
    end.

  Definition step (t : nat) (s : state) : result (option state) :=
    match nth_error (threads s) t with
    | None => Ok None
    | Some th =>
        r <- tstep (jobs s) (work s) th ;;
        match r with
        | None => Ok None
        | Some (js, wq, th) => Ok (Some {| jobs := js; work := wq; threads := replace_nth t th (threads s) |})
        end
    end.

  Fixpoint run (schedule : list nat) (s : state) : result state :=
    match schedule with
    | [] => Ok s
    | t :: schedule =>
        r <- step t s ;;
        match r with None => run schedule s | Some s => run schedule s end
    end.

  (** [executors] executor threads, and one thread for each program. *)
  Definition start (executors : nat) (programs : list body) : state :=
    {| jobs := []; work := [];
       threads := repeat {| executor := true; stack := [] |} executors ++
                  map (fun p => {| executor := false; stack := [Main p (Running p)] |}) programs |}.
End Pmap.
Arguments outcome E A : clear implicits.
Arguments Good {E A} a.
Arguments Bad {E A} e.
Arguments body V E : clear implicits.
Arguments job V E : clear implicits.
Arguments activity V E : clear implicits.
Arguments frame V E : clear implicits.
Arguments thread V E : clear implicits.
Arguments state V E : clear implicits.
