(** Model of the compiler cache, compiler/native_compiler/compiler_cache.py: a directory on disk that keeps compiled
    code, which many processes read and write at once and any of which may die at any moment. *)
From Verif Require Import Base.

(** A module of compiled code, binary_shared_object.py: the functions it defines, with their code, and the hashes of
    the modules that it needs.  Symbols, codes and hashes are numbers.  Its types and global variables are not
    looked into: what matters is whether a process can load them (see [can] below). *)
Record module := Module { defs : list (nat * nat); subs : list nat }.
(** Its symbols. *)
Definition syms (m : module) : list nat := map fst (defs m).
(** The files of a module, in the order in which lines 323-366 write them. *)
Inductive file := FSo | FNames | FNamesTxt | FTypes | FNativeTypes | FGlobals | FSubmodules | FLinks | FDefs.
Definition all_files : list file := [FSo; FNames; FNamesTxt; FTypes; FNativeTypes; FGlobals; FSubmodules; FLinks; FDefs].
Definition file_eqb (a b : file) : bool :=
  match a, b with
  | FSo, FSo | FNames, FNames | FNamesTxt, FNamesTxt | FTypes, FTypes | FNativeTypes, FNativeTypes
  | FGlobals, FGlobals | FSubmodules, FSubmodules | FLinks, FLinks | FDefs, FDefs => true
  | _, _ => false
  end.
(** A directory: its files, each with what of which module it has, or without contents if it is opened but not yet
    written. *)
Definition dir := list (file * option module).
(** The name of a directory, lines 312-319: a hash of 40 characters, or such a hash with a suffix. *)
Inductive name := Final (h : nat) | Temp (h u : nat).
Definition name_hash (n : name) : nat := match n with Final h => h | Temp h _ => h end.
Definition name_eqb (a b : name) : bool :=
  match a, b with Final h, Final g => Nat.eqb h g | Temp h u, Temp g v => Nat.eqb h g && Nat.eqb u v | _, _ => false end.
(** The disk, newest directory first; the directories that have the file "marked_invalid" are kept in a list. *)
Record disk := Disk { dirs : list (name * dir); marks : list nat }.

Definition mem (x : nat) (l : list nat) : bool := existsb (Nat.eqb x) l.
Fixpoint look {A} (k : nat) (l : list (nat * A)) : option A :=
  match l with [] => None | (k', a) :: l => if Nat.eqb k k' then Some a else look k l end.
Fixpoint find_dir (n : name) (l : list (name * dir)) : option dir :=
  match l with [] => None | (n', d) :: l => if name_eqb n n' then Some d else find_dir n l end.
Fixpoint find_file (f : file) (d : dir) : option module :=
  match d with [] => None | (g, c) :: d => if file_eqb f g then c else find_file f d end.
(** Opening and reading a file of a module, as at lines 139-140: None if there is none, or if it does not have all of
    its contents. *)
Definition read (d : disk) (h : nat) (f : file) : option module :=
  match find_dir (Final h) (dirs d) with Some x => find_file f x | None => None end.

(** Writing a module, lines 320-376: opening the files and writing them, one after the other. *)
Inductive micro := Open (f : file) | Put (f : file).
Definition script : list micro := flat_map (fun f => [Open f; Put f]) all_files.
Definition do_micro (m : module) (d : dir) (x : micro) : dir :=
  match x with
  | Open f => d ++ [(f, None)]
  | Put f => map (fun gc => if file_eqb f (fst gc) then (f, Some m) else gc) d
  end.
(** The module that a process is writing, and how much of the script it has done. *)
Record job := Job { j_hash : nat; j_uuid : nat; j_module : module; j_done : nat }.

(** The memory of a process, lines 52-75.  [can] says which modules the process is able to load: those of which the
    types and globals can be read with the code that it runs and have the right types, lines 138-165.
    symbolToModuleHashes is kept as the pairs in it, in their order: it has a key as long as there is a pair. *)
Record proc := Proc {
  can : module -> bool;
  loaded : list (nat * module);
  sym_loaded : list (nat * nat);
  sym_mods : list (nat * nat);
  mod_syms : list (nat * list nat);
  writing : option job }.

(** hasSymbol, lines 77-84. *)
Definition has_symbol (p : proc) (s : nat) : bool := mem s (map fst (sym_mods p)).
(** The set of modules for a symbol. *)
Definition hashes_of (p : proc) (s : nat) : list nat := map snd (filter (fun x => Nat.eqb s (fst x)) (sym_mods p)).
(** markModuleHashInvalid, lines 86-96: None if there is no such directory. *)
Definition mark (d : disk) (p : proc) (h : nat) : option (disk * proc) :=
  match find_dir (Final h) (dirs d) with
  | None => None
  | Some _ =>
      let gone := match look h (mod_syms p) with Some l => l | None => [] end in
      Some (Disk (dirs d) (h :: marks d),
            Proc (can p) (loaded p) (sym_loaded p)
                 (filter (fun x => negb (Nat.eqb h (snd x) && mem (fst x) gone)) (sym_mods p))
                 (filter (fun x => negb (Nat.eqb h (fst x))) (mod_syms p)) (writing p))
  end.

(** Entering a name manifest, lines 285-290 and 258-259. *)
Definition add_pair (l : list (nat * nat)) (x : nat * nat) : list (nat * nat) :=
  if existsb (fun y => Nat.eqb (fst x) (fst y) && Nat.eqb (snd x) (snd y)) l then l else l ++ [x].
Definition enter_names (p : proc) (h : nat) (m : module) : proc :=
  Proc (can p) (loaded p) (sym_loaded p) (fold_left add_pair (map (fun s => (s, h)) (syms m)) (sym_mods p))
       ((h, syms m) :: filter (fun x => negb (Nat.eqb h (fst x))) (mod_syms p)) (writing p).
(** Entering a loaded module, lines 187-195 and 251-257: the first module loaded for a symbol stays. *)
Definition add_first (l : list (nat * nat)) (x : nat * nat) : list (nat * nat) :=
  match look (fst x) l with Some _ => l | None => l ++ [x] end.
Definition enter_loaded (p : proc) (h : nat) (m : module) : proc :=
  Proc (can p) ((h, m) :: loaded p) (fold_left add_first (map (fun s => (s, h)) (syms m)) (sym_loaded p))
       (sym_mods p) (mod_syms p) (writing p).

(** What a call answers: a truth value, or an exception.  [OutOfFuel] is of the model alone. *)
Inductive error := FileNotFound | AssertionFailed | OutOfFuel.
Inductive answer := Yes | No | Raised (e : error).

(** loadNameManifestFromStoredModuleByHash, lines 261-294, with modulesMarkedValid as [v]. *)
Record scan := Scan { s_disk : disk; s_proc : proc; s_valid : list nat }.
Fixpoint scan_subs (f : scan -> nat -> answer * scan) (c : scan) (l : list nat) : answer * scan :=
  match l with
  | [] => (Yes, c)
  | g :: l =>
      match f c g with
      | (Yes, c') => scan_subs f c' l
      | (No, c') =>
          match mark (s_disk c') (s_proc c') g with
          | Some (d, p) => (No, Scan d p (s_valid c'))
          | None => (Raised FileNotFound, c')
          end
      | (Raised e, c') => (Raised e, c')
      end
  end.
Fixpoint scan_module (fuel : nat) (c : scan) (h : nat) : answer * scan :=
  match fuel with
  | O => (Raised OutOfFuel, c)
  | S fuel =>
      if mem h (s_valid c) then (Yes, c)
      else if mem h (marks (s_disk c)) then (No, c)
      else
        match read (s_disk c) h FSubmodules with
        | None => (Raised FileNotFound, c)
        | Some m =>
            match scan_subs (scan_module fuel) c (subs m) with
            | (Yes, c') =>
                match read (s_disk c') h FNames with
                | None => (Raised FileNotFound, c')
                | Some m' => (Yes, Scan (s_disk c') (enter_names (s_proc c') h m') (h :: s_valid c'))
                end
            | r => r
            end
        end
  end.
(** The names of 40 characters that os.listdir gives, lines 73-74.  Their order is that of the list of directories. *)
Definition finals (l : list (name * dir)) : list nat :=
  flat_map (fun x => match fst x with Final h => [h] | Temp _ _ => [] end) l.
Fixpoint scan_all (c : scan) (l : list nat) : option error * scan :=
  match l with
  | [] => (None, c)
  | h :: l =>
      match scan_module (S (length (dirs (s_disk c)))) c h with
      | (Raised e, c') => (Some e, c')
      | (_, c') => scan_all c' l
      end
  end.
(** The constructor, lines 52-75.  All of it is one step here; see [start_among] for what others do meanwhile. *)
Definition start (d : disk) (ok : module -> bool) : option error * scan :=
  scan_all (Scan d (Proc ok [] [] [] [] None) []) (finals (dirs d)).

(** loadModuleByHash, lines 120-197.  [news] are the modules that went into the three dicts. *)
Record load_state := Load { l_disk : disk; l_proc : proc; news : list module }.
(** All of the six files, lines 138-157. *)
Definition read_all (d : disk) (h : nat) : option module :=
  match read d h FTypes, read d h FGlobals, read d h FNativeTypes, read d h FSubmodules, read d h FLinks, read d h FDefs with
  | Some m, Some _, Some _, Some _, Some _, Some _ => Some m
  | _, _, _, _, _, _ => None
  end.
Definition fail (c : load_state) (h : nat) : answer * load_state :=
  match mark (l_disk c) (l_proc c) h with
  | Some (d, p) => (No, Load d p (news c))
  | None => (Raised FileNotFound, c)
  end.
Fixpoint load_subs (f : load_state -> nat -> answer * load_state) (c : load_state) (l : list nat) : answer * load_state :=
  match l with
  | [] => (Yes, c)
  | g :: l => match f c g with (Yes, c') => load_subs f c' l | r => r end
  end.
Fixpoint load_module (fuel : nat) (c : load_state) (h : nat) : answer * load_state :=
  match fuel with
  | O => (Raised OutOfFuel, c)
  | S fuel =>
      match look h (loaded (l_proc c)) with
      | Some _ => (Yes, c)
      | None =>
          match read_all (l_disk c) h with
          | None => fail c h
          | Some m =>
              if negb (can (l_proc c) m) then fail c h
              else
                match load_subs (load_module fuel) c (subs m) with
                | (Yes, c') => (Yes, Load (l_disk c') (enter_loaded (l_proc c') h m) (news c' ++ [m]))
                | r => r
                end
          end
      end
  end.
(** loadForSymbol, lines 98-118: what it returns, or raises. *)
Inductive found := Already | Loaded (new : list module) | Nowhere | LoadRaised (e : error).
Fixpoint load_loop (fuel : nat) (d : disk) (p : proc) (s : nat) : found * disk * proc :=
  match fuel with
  | O => (LoadRaised OutOfFuel, d, p)
  | S fuel =>
      match hashes_of p s with
      | [] => (Nowhere, d, p)
      | h :: _ =>
          match load_module (S (length (dirs d))) (Load d p []) h with
          | (Yes, c) => (Loaded (news c), l_disk c, l_proc c)
          | (No, c) =>
              if mem h (hashes_of (l_proc c) s) then (LoadRaised AssertionFailed, l_disk c, l_proc c)
              else load_loop fuel (l_disk c) (l_proc c) s
          | (Raised e, c) => (LoadRaised e, l_disk c, l_proc c)
          end
      end
  end.
Definition load_for_symbol (d : disk) (p : proc) (s : nat) : found * disk * proc :=
  match look s (sym_loaded p) with
  | Some _ => (Already, d, p)
  | None => load_loop (S (length (sym_mods p))) d p s
  end.
(** function_pointer_by_name, lines 378-386: the code that runs for the symbol. *)
Definition pointer (p : proc) (s : nat) : option nat :=
  match look s (sym_loaded p) with
  | None => None
  | Some h => match look h (loaded p) with None => None | Some m => look s (defs m) end
  end.

(** The modules that code depends on, lines 240-243: None if a symbol is not loaded. *)
Fixpoint dependent (p : proc) (used : list nat) : option (list nat) :=
  match used with
  | [] => Some []
  | s :: used =>
      match look s (sym_loaded p), dependent p used with
      | Some h, Some l => Some (if mem h l then l else h :: l)
      | _, _ => None
      end
  end.
Definition set_writing (p : proc) (j : option job) : proc :=
  Proc (can p) (loaded p) (sym_loaded p) (sym_mods p) (mod_syms p) j.
(** addModule up to the making of the directory, lines 240-243 and 310-320.  The hash is that of a new uuid: it is
    taken as one that no directory has.  The check of lines 209-238 is not modelled. *)
Definition begin_module (d : disk) (p : proc) (code : list (nat * nat)) (used : list nat) (h u : nat) : disk * proc :=
  match writing p, dependent p used with
  | None, Some l =>
      if mem h (map (fun x => name_hash (fst x)) (dirs d)) then (d, p)
      else (Disk ((Temp h u, []) :: dirs d) (marks d), set_writing p (Some (Job h u (Module code l) 0)))
  | _, _ => (d, p)
  end.
Definition change_dir (n : name) (f : name * dir -> name * dir) (l : list (name * dir)) : list (name * dir) :=
  map (fun x => if name_eqb n (fst x) then f x else x) l.
(** One step of writing: a file is opened or written, lines 322-366, or the directory gets its name, line 369, after
    which the process has the module loaded, lines 251-259. *)
Definition advance (d : disk) (p : proc) : disk * proc :=
  match writing p with
  | None => (d, p)
  | Some j =>
      let n := Temp (j_hash j) (j_uuid j) in
      match nth_error script (j_done j) with
      | Some x =>
          (Disk (change_dir n (fun y => (n, do_micro (j_module j) (snd y) x)) (dirs d)) (marks d),
           set_writing p (Some (Job (j_hash j) (j_uuid j) (j_module j) (S (j_done j)))))
      | None =>
          (Disk (change_dir n (fun y => (Final (j_hash j), snd y)) (dirs d)) (marks d),
           set_writing (enter_names (enter_loaded p (j_hash j) (j_module j)) (j_hash j) (j_module j)) None)
      end
  end.

(** The processes, and what happens: one starts with the code it runs, adds a module, does the next step of writing it,
    looks for a symbol, or dies. *)
Record world := World { on_disk : disk; procs : nat -> option proc }.
Inductive event :=
| Start (i : nat) (ok : module -> bool)
| Begin (i : nat) (code : list (nat * nat)) (used : list nat) (h u : nat)
| Advance (i : nat)
| LoadSymbol (i : nat) (s : nat)
| Crash (i : nat).
Definition put (w : world) (i : nat) (r : disk * option proc) : world :=
  World (fst r) (fun j => if Nat.eqb j i then snd r else procs w j).
Definition alive (w : world) (i : nat) (f : proc -> disk * proc) : world :=
  match procs w i with Some p => let (d, p') := f p in put w i (d, Some p') | None => w end.
Definition happen (w : world) (e : event) : world :=
  match e with
  | Start i ok =>
      match procs w i with
      | Some _ => w
      | None => match start (on_disk w) ok with
                | (None, c) => put w i (s_disk c, Some (s_proc c))
                | (Some _, c) => put w i (s_disk c, None)
                end
      end
  | Begin i code used h u => alive w i (fun p => begin_module (on_disk w) p code used h u)
  | Advance i => alive w i (advance (on_disk w))
  | LoadSymbol i s => alive w i (fun p => let '(_, d, p') := load_for_symbol (on_disk w) p s in (d, p'))
  | Crash i => put w i (on_disk w, None)
  end.
Definition run (es : list event) : world := fold_left happen es (World (Disk [] []) (fun _ => None)).

(** The constructor once more, lines 52-75, with what other processes do before each of its turns: a module and those
    that it needs are still read in one. *)
Fixpoint scan_among (turns : nat -> list event) (w : world) (p : proc) (v : list nat) (l : list nat) : option error * world * scan :=
  match l with
  | [] => (None, w, Scan (on_disk w) p v)
  | h :: l =>
      let w := fold_left happen (turns (length l)) w in
      match scan_module (S (length (dirs (on_disk w)))) (Scan (on_disk w) p v) h with
      | (Raised e, c) => (Some e, w, c)
      | (_, c) => scan_among turns (World (s_disk c) (procs w)) (s_proc c) (s_valid c) l
      end
  end.
Definition start_among (turns : nat -> list event) (w : world) (ok : module -> bool) : option error * world * scan :=
  scan_among turns w (Proc ok [] [] [] [] None) [] (finals (dirs (on_disk w))).
