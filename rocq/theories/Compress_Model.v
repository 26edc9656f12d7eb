(** Model of the compression of serialized data: SerializationBuffer.hpp/.cpp with the background
    compression threads, and [DeserializationBuffer::decompress].

    Any number of threads serialize at the same time (writers), and any number of compression threads
    (workers) serve them; the code starts four workers when the first block is marked, here they look
    for work from the start.  A step of a thread is a section that it executes with the mutex held, or
    what it does between two of them.  The schedule also chooses the block that
    [s_waiting_compress_blocks.begin()] is, and may contain spurious wake-ups.
    Not modelled: an error of LZ4 in a worker (it ends the process), and running out of memory. *)
From Verif Require Import Base PyList Wire_Model.
Open Scope nat_scope.

Section Compress.
  (** [LZ4F_compressFrame] with the preferences of SerializationBuffer.cpp:32-36. *)
  Variable lz4 : bytes -> bytes.
  (** The size after which a block is full, 1024 * 1024 bytes in the code. *)
  Variable limit : Z.

  (** What [compress] replaces the data with, SerializationBuffer.cpp:65-69. *)
  Definition frame (data : bytes) : bytes :=
    le_bytes 4 (wrap_u 32 (Z.of_nat (length (lz4 data)))) ++ lz4 data.

  (** [SerializationBufferBlock]; [compressions] counts the calls of [compress] that did something and
      is not in the code. *)
  Record block := { data : bytes; compressed : bool; compressions : nat }.
  Definition new_block (d : bytes) : block := {| data := d; compressed := false; compressions := 0 |}.
  Definition oversized (d : bytes) : bool := (limit <? Z.of_nat (length d))%Z.   (* SerializationBuffer.hpp:66-68 *)

  (** ** One thread: [m_compress_using_threads] is false *)

  (** [checkTopBlock] before each write, SerializationBuffer.hpp:415-436: the blocks of a sequence of
      writes, after the blocks [full] and with [top] begun.  A write is what reaches one block at once:
      [write_bytes] has already cut what is longer than a megabyte into such writes (301-307). *)
  Fixpoint split_from (full : list bytes) (top : bytes) (writes : list bytes) : list bytes :=
    match writes with
    | [] => full ++ [top]
    | w :: writes => if oversized top then split_from (full ++ [top]) w writes else split_from full (top ++ w) writes
    end.
  (** [finalize] compresses every block in order (405-413, [waitForCompression] 151-155), and
      [copyInto] copies them (283-290). *)
  Definition compress_serially (writes : list bytes) : bytes := concat (map frame (split_from [] [] writes)).

  (** ** Many threads *)

  (** Where a writer is: serializing; in [waitForCompression] of block [i], looking or asleep; done,
      with the bytes that [copyInto] copied; or gone because an exception was thrown. *)
  Inductive wpc := Writing | Checking (i : nat) | Sleeping (i : nat) | Done (out : bytes) | Dropped.
  (** [full] are the blocks that were marked for compression, [top] is the block that is being written.
      [finishes] says whether [finalize] will be called. *)
  Record writer := { todo : list bytes; finishes : bool; full : list block; top : bytes; wp : wpc }.

  (** A block is named by the thread that writes it and its position. *)
  Notation id := (nat * nat)%type.
  (** Where a worker is: in [getNextCompressTask], looking or asleep; in [compress], before it has read
      the block and before it stores the result; before the [erase]. *)
  Inductive kpc := Looking | WorkerSleeping | Compressing (b : id) | Storing (b : id) (d : bytes) | Finishing (b : id).
  Inductive thread := Writer (w : writer) | Worker (p : kpc).

  Record state := { waiting : list id; working : list id; threads : list thread }.

  Definition id_eqb (a b : id) : bool := (fst a =? fst b) && (snd a =? snd b).
  Definition mem (b : id) (l : list id) : bool := existsb (id_eqb b) l.
  Definition insert (b : id) (l : list id) : list id := if mem b l then l else l ++ [b].
  Definition erase (b : id) (l : list id) : list id := filter (fun x => negb (id_eqb b x)) l.

  (** [notify_all] *)
  Definition wake (th : thread) : thread :=
    match th with
    | Writer w => match wp w with
                  | Sleeping i => Writer {| todo := todo w; finishes := finishes w; full := full w; top := top w; wp := Checking i |}
                  | _ => th
                  end
    | Worker WorkerSleeping => Worker Looking
    | Worker _ => th
    end.
  Definition set_wp (w : writer) (p : wpc) : writer :=
    {| todo := todo w; finishes := finishes w; full := full w; top := top w; wp := p |}.

  Definition get_block (ths : list thread) (b : id) : option block :=
    match nth_error ths (fst b) with
    | Some (Writer w) => nth_error (full w) (snd b)
    | _ => None
    end.
  Definition set_block (ths : list thread) (b : id) (blk : block) : list thread :=
    match nth_error ths (fst b) with
    | Some (Writer w) =>
        replace_nth (fst b) (Writer {| todo := todo w; finishes := finishes w; full := replace_nth (snd b) blk (full w);
                                       top := top w; wp := wp w |}) ths
    | _ => ths
    end.

  (** [markForCompression], SerializationBuffer.cpp:174-195, of the top block of the writer [t], which
      then has the state [w]. *)
  Definition mark (t : nat) (w : writer) (s : state) : state :=
    {| waiting := insert (t, length (full w) - 1) (waiting s); working := working s;
       threads := map wake (replace_nth t (Writer w) (threads s)) |}.

  (** One step of a writer: a write (SerializationBuffer.hpp:415-436), the call of
      [markForCompression] in [finalize] (407), a look at the two sets in [waitForCompression]
      (157-171), or [copyInto]. *)
  Definition writer_step (t : nat) (w : writer) (s : state) : option state :=
    let continue w := {| waiting := waiting s; working := working s; threads := replace_nth t (Writer w) (threads s) |} in
    match wp w with
    | Writing =>
        match todo w with
        | bs :: rest =>
            if oversized (top w) then
              Some (mark t {| todo := rest; finishes := finishes w; full := full w ++ [new_block (top w)]; top := bs; wp := Writing |} s)
            else Some (continue {| todo := rest; finishes := finishes w; full := full w; top := top w ++ bs; wp := Writing |})
        | [] =>
            if finishes w then
              Some (mark t {| todo := []; finishes := true; full := full w ++ [new_block (top w)]; top := []; wp := Checking 0 |} s)
            else Some (continue (set_wp w Dropped))
        end
    | Checking i =>
        if i <? length (full w) then
          if mem (t, i) (waiting s) || mem (t, i) (working s) then Some (continue (set_wp w (Sleeping i)))
          else Some (continue (set_wp w (Checking (S i))))
        else Some (continue (set_wp w (Done (concat (map data (full w))))))
    | Sleeping _ | Done _ | Dropped => None
    end.

  (** One step of a worker: [getNextCompressTask] (118-134; [choice] picks the block), the two halves of
      [compress] (27-74), the [erase] and [notify_all] (143-146). *)
  Definition worker_step (t choice : nat) (p : kpc) (s : state) : result (option state) :=
    let continue ths p := {| waiting := waiting s; working := working s; threads := replace_nth t (Worker p) ths |} in
    match p with
    | Looking =>
        match waiting s with
        | [] => Ok (Some (continue (threads s) WorkerSleeping))
        | b0 :: _ =>
            let b := nth (choice mod length (waiting s)) (waiting s) b0 in
            Ok (Some {| waiting := erase b (waiting s); working := insert b (working s);
                        threads := replace_nth t (Worker (Compressing b)) (threads s) |})
        end
    | WorkerSleeping => Ok None
    | Compressing b =>
        match get_block (threads s) b with
        | None => Err UndefinedBehaviour
        | Some blk => if compressed blk then Ok (Some (continue (threads s) (Finishing b)))
                      else Ok (Some (continue (threads s) (Storing b (frame (data blk)))))
        end
    | Storing b d =>
        match get_block (threads s) b with
        | None => Err UndefinedBehaviour
        | Some blk => Ok (Some (continue (set_block (threads s) b
                        {| data := d; compressed := true; compressions := S (compressions blk) |}) (Finishing b)))
        end
    | Finishing b =>
        Ok (Some {| waiting := waiting s; working := erase b (working s);
                    threads := map wake (replace_nth t (Worker Looking) (threads s)) |})
    end.

  (** [Turn t choice] is a step of thread [t]; [Spurious t] wakes it if it is asleep. *)
  Inductive event := Turn (t choice : nat) | Spurious (t : nat).
  Definition step (e : event) (s : state) : result (option state) :=
    match e with
    | Turn t choice =>
        match nth_error (threads s) t with
        | None => Ok None
        | Some (Writer w) => Ok (writer_step t w s)
        | Some (Worker p) => worker_step t choice p s
        end
    | Spurious t =>
        match nth_error (threads s) t with
        | None => Ok None
        | Some th => Ok (Some {| waiting := waiting s; working := working s; threads := replace_nth t (wake th) (threads s) |})
        end
    end.
  Fixpoint run (schedule : list event) (s : state) : result state :=
    match schedule with
    | [] => Ok s
    | e :: schedule =>
        match step e s with
        | Err x => Err x
        | Ok None => run schedule s
        | Ok (Some s) => run schedule s
        end
    end.

  (** Each writer is given by its writes and whether it gets as far as [finalize]. *)
  Definition new_writer (p : list bytes * bool) : thread :=
    Writer {| todo := fst p; finishes := snd p; full := []; top := []; wp := Writing |}.
  Definition start (workers : nat) (writers : list (list bytes * bool)) : state :=
    {| waiting := []; working := []; threads := map new_writer writers ++ repeat (Worker Looking) workers |}.
End Compress.
