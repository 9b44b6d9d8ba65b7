(* The creation of the directories for output and checkpoints by the processes of a run: src/rdyadvance.c (15-63,
   262-281), src/checkpoint.c (13-46, 244-256) and the communicators of src/ensemble.c (5-16).  Unlike the rest of the
   model this one lets the processes take their steps in any order. *)
From Coq Require Import List Arith ZArith Bool String.
Import ListNotations.
Local Open Scope nat_scope.
Local Notation length := List.length.

(* ---- the file system (trusted base: POSIX mkdir(2) and open(2) with O_CREAT) ---- *)
(* A path is the list of its components, relative to the working directory, which is []. *)
Definition path := list string.
Inductive kind := Directory | File.
Definition files := path -> option kind.
Inductive errno := NOERR | EEXIST | ENOENT | ENOTDIR | EACCES | EISDIR.
Definition path_dec : forall p q : path, {p = q} + {p <> q} := list_eq_dec string_dec.
Definition put (fs : files) (p : path) (k : kind) : files := fun q => if path_dec q p then Some k else fs q.
(* resolution of a path: everything above its last component has to be a directory *)
Fixpoint walk (fs : files) (done todo : path) : errno :=
  match todo with
  | [] => NOERR
  | x :: t => match fs done with
              | Some Directory => walk fs (done ++ [x]) t
              | Some File => ENOTDIR
              | None => ENOENT
              end
  end.
(* mkdir(path, 0755): result and errno; [denied] are the paths the user may not create. (After a success errno keeps an
   older value, which is not looked at: see CreateDirectory.) *)
Definition answer := (Z * errno)%type.
Definition mkdir (denied : path -> bool) (fs : files) (p : path) : files * answer :=
  match walk fs [] p with
  | NOERR => match fs p with
             | Some _ => (fs, ((-1)%Z, EEXIST))
             | None => if denied p then (fs, ((-1)%Z, EACCES)) else (put fs p Directory, (0%Z, NOERR))
             end
  | e => (fs, ((-1)%Z, e))
  end.
(* a file opened for writing: NOERR, or why not *)
Definition open_file (denied : path -> bool) (fs : files) (p : path) : files * errno :=
  match walk fs [] p with
  | NOERR => match fs p with
             | Some Directory => (fs, EISDIR)
             | _ => if denied p then (fs, EACCES) else (put fs p File, NOERR)
             end
  | e => (fs, e)
  end.

(* ---- the run ---- *)
Inductive comm := Global | Own (m : nat).         (* rdy->global_comm; rdy->comm, named after the ensemble member *)
Definition comm_dec : forall a b : comm, {a = b} + {a <> b}.
Proof. decide equality. apply Nat.eq_dec. Defined.

Record setup := Setup {
  nproc : nat;
  size : nat;                       (* ensemble.size: 0 without an ensemble, otherwise more than 1 (yaml_input.c:897-906) *)
  dirs : list path;                 (* the directories, in the order in which they are created *)
  name : nat -> path;               (* the name of a member; a name with slashes has several components *)
  opens : nat -> list path;         (* the files a process opens afterwards, in order *)
}.
Definition ensemble (cfg : setup) : bool := 1 <? size cfg.
(* ensemble.c:9-10: the color of a rank (the number of processes is a multiple of the size: yaml_input.c:905); without an
   ensemble rdy->comm contains all processes *)
Definition member_of (cfg : setup) (p : nat) : nat := if ensemble cfg then p / (nproc cfg / size cfg) else 0.
(* ensemble.c:13, MPI_Comm_split with equal keys: the processes of a communicator in the order of their ranks *)
Definition members (cfg : setup) (c : comm) : list nat :=
  match c with
  | Global => seq 0 (nproc cfg)
  | Own m => filter (fun p => member_of cfg p =? m) (seq 0 (nproc cfg))
  end.
Definition first (cfg : setup) (c : comm) : nat := hd 0 (members cfg c).      (* its rank 0 *)

(* What a process does, split at the points at which others can see or affect it *)
Inductive op :=
  | MkdirOnFirst (c : comm) (d : path)
  | Bcast (c : comm)
  | Check (d : path)
  | EnterBarrier (c : comm)
  | LeaveBarrier (c : comm)
  | Open (f : path).

(* rdyadvance.c:32-45 *)
Definition CreateDirectory (c : comm) (d : path) : list op := [MkdirOnFirst c d; Bcast c; Check d].
(* rdyadvance.c:15-28, checkpoint.c:13-26: the directory of the process (names shorter than PETSC_MAX_PATH_LEN) *)
Definition own_dir (cfg : setup) (p : nat) (d : path) : path := if ensemble cfg then d ++ name cfg (member_of cfg p) else d.
(* CreateOutputDirectory, rdyadvance.c:48-63; CreateCheckpointDirectory, checkpoint.c:31-46, is the same with the
   directory "checkpoints" *)
Definition CreateOutputDirectory (cfg : setup) (p : nat) (d : path) : list op :=
  (if ensemble cfg then CreateDirectory Global d else []) ++
  CreateDirectory (Own (member_of cfg p)) (own_dir cfg p d) ++
  [EnterBarrier Global; LeaveBarrier Global].
(* InitCheckpoints (checkpoint.c:246-248, called from RDySetup) and the start of RDyAdvance (rdyadvance.c:267-281): the
   directories one after the other, then files. All processes make the same calls; files are opened when all directories
   have been made. *)
Definition program (cfg : setup) (p : nat) : list op :=
  flat_map (CreateOutputDirectory cfg p) (dirs cfg) ++ map Open (opens cfg p).

Inductive status := Running | NoDirectory (d : path) | NoFile (f : path) | Mismatch.
Record proc := Proc {
  todo : list op;
  buf : answer;                     (* result_and_errno *)
  calls : comm -> nat;              (* the collective calls made so far on each communicator *)
  stat : status;
}.
(* What the first process of each communicator has contributed to its collective calls so far: the answer it
   broadcast, or nothing for a barrier *)
Record state := State { fs : files; procs : nat -> proc; sent : comm -> list (option answer) }.

Definition upd_proc (s : state) (p : nat) (x : proc) : nat -> proc := fun q => if q =? p then x else procs s q.
Definition count_call (n : comm -> nat) (c : comm) : comm -> nat := fun d => if comm_dec d c then S (n d) else n d.
Definition post (sent : comm -> list (option answer)) (c : comm) (m : option answer) : comm -> list (option answer) :=
  fun d => if comm_dec d c then sent d ++ [m] else sent d.
Definition local (s : state) (p : nat) (x : proc) : state := State (fs s) (upd_proc s p x) (sent s).

(* PetscCheck, rdyadvance.c:43 *)
Definition accepted (a : answer) : bool := Z.eqb (fst a) 0 || match snd a with EEXIST => true | _ => false end.

(* One step of process [p]; None: it has nothing to do or has to wait.  MPI (trusted base): the calls on a communicator
   match in the order in which each process makes them.  A broadcast does not hold up its root; the others take the value
   once the root has sent it.  A barrier lets a process go when all have entered it. Matching calls of different kinds
   are an error of the program (Mismatch). A process that fails stays where it is: it returns the error. *)
Definition step (cfg : setup) (denied : path -> bool) (p : nat) (s : state) : option state :=
  if negb (p <? nproc cfg) then None else
  let x := procs s p in
  match stat x with
  | Running =>
      match todo x with
      | [] => None
      | MkdirOnFirst c d :: t =>
          if p =? first cfg c
          then let r := mkdir denied (fs s) d in
               Some (State (fst r) (upd_proc s p (Proc t (snd r) (calls x) Running)) (sent s))
          else Some (local s p (Proc t (buf x) (calls x) Running))
      | Bcast c :: t =>
          if p =? first cfg c
          then Some (State (fs s) (upd_proc s p (Proc t (buf x) (count_call (calls x) c) Running)) (post (sent s) c (Some (buf x))))
          else match nth_error (sent s c) (calls x c) with
               | None => None
               | Some (Some a) => Some (local s p (Proc t a (count_call (calls x) c) Running))
               | Some None => Some (local s p (Proc (todo x) (buf x) (calls x) Mismatch))
               end
      | Check d :: t =>
          if accepted (buf x)
          then Some (local s p (Proc t (buf x) (calls x) Running))
          else Some (local s p (Proc (todo x) (buf x) (calls x) (NoDirectory d)))
      | EnterBarrier c :: t =>
          let y := Proc t (buf x) (count_call (calls x) c) Running in
          Some (State (fs s) (upd_proc s p y) (if p =? first cfg c then post (sent s) c None else sent s))
      | LeaveBarrier c :: t =>
          if forallb (fun q => calls x c <=? calls (procs s q) c) (members cfg c)
          then Some (local s p (Proc t (buf x) (calls x) Running))
          else None
      | Open f :: t =>
          let r := open_file denied (fs s) f in
          match snd r with
          | NOERR => Some (State (fst r) (upd_proc s p (Proc t (buf x) (calls x) Running)) (sent s))
          | _ => Some (local s p (Proc (todo x) (buf x) (calls x) (NoFile f)))
          end
      end
  | _ => None
  end.

(* A schedule names the process that may take the next step; if that process has to wait nothing happens. *)
Definition turn (cfg : setup) (denied : path -> bool) (s : state) (p : nat) : state :=
  match step cfg denied p s with Some s' => s' | None => s end.
Definition run (cfg : setup) (denied : path -> bool) (schedule : list nat) (s : state) : state :=
  fold_left (turn cfg denied) schedule s.
Definition start (cfg : setup) (f : files) : state :=
  State f (fun p => Proc (program cfg p) (0%Z, NOERR) (fun _ => 0) Running) (fun _ => []).
