(** The log: which file it goes to, which messages reach it, and what interleaved processes make of it
    (include/private/rdylogimpl.h, src/rdysetup.c:1274-1288 and 1381-1391). *)
From Coq Require Import String.
From Verif Require Import Base SetupModel OutputModel.
Local Notation length := List.length.
Local Open Scope nat_scope.
Local Open Scope string_scope.

(** ** The name of the file *)
(* rdysetup.c:1274-1275, 1282-1287: one buffer for all simulators of a process; the simulator passed is not looked at *)
Definition RDySetLogFile (rdy : nat) (filename : string) (overridden_logfile : string) : string :=
  snprintf PETSC_MAX_PATH_LEN filename.
(* rdysetup.c:1382-1384 *)
Definition log_file (config_file overridden_logfile : string) : string :=
  if String.eqb overridden_logfile "" then config_file else overridden_logfile.
(* What a driver does with its simulators, in order: results are the log files of the simulators set up *)
Inductive call := SetLog (rdy : nat) (filename : string) | Setup (rdy : nat) (config_file : string).
Fixpoint calls (cs : list call) (overridden_logfile : string) : list (nat * string) :=
  match cs with
  | [] => []
  | SetLog rdy f :: cs => calls cs (RDySetLogFile rdy f overridden_logfile)
  | Setup rdy c :: cs => (rdy, log_file c overridden_logfile) :: calls cs overridden_logfile
  end.

(** ** Messages *)
(* rdylogimpl.h:14-20 *)
Definition LOG_NONE := 0. Definition LOG_WARNING := 1. Definition LOG_INFO := 2. Definition LOG_DETAIL := 3. Definition LOG_DEBUG := 4.
(* 25 *)
Definition RDyLogLabels : list string := [""; "WARNING: "; "INFO: "; "DETAIL: "; "DEBUG: "].
Definition newline : string := String (Ascii.ascii_of_nat 10) "".

(** ** Streams *)
(* FILE pointers: stdout, a file opened for writing by this process with the position it has reached in messages, NULL,
   and a pointer that was never set *)
Inductive stream := Stdout | Opened (name : string) (at_message : nat) | Null | Unset.
(* The content of a file: its messages.  None stands for zero bytes of the length of a message, which are left when
   another process empties a file and this one writes on at the position it has reached.  Streams are taken to be
   flushed after every message. *)
Definition content := list (option string).
Record machine := Machine { files : string -> option content; standard_output : list string }.
Definition set_file (m : machine) (f : string) (c : content) : machine :=
  Machine (fun g => if String.eqb g f then Some c else files m g) (standard_output m).
(* writing a message at a position *)
Fixpoint write_at (c : content) (k : nat) (t : string) : content :=
  match k, c with
  | O, [] => [Some t]
  | O, _ :: c => Some t :: c
  | S k, [] => None :: write_at [] k t
  | S k, x :: c => x :: write_at c k t
  end.

(** ** PETSc *)
(* PetscFOpen with mode "w": rank 0 of the communicator opens, which empties the file, the others get NULL.  The name
   "stderr" and failures to open are left out. *)
Definition PetscFOpen (comm_rank : nat) (name : string) (m : machine) : machine * stream :=
  if Nat.eqb comm_rank 0
  then if String.eqb name "stdout" then (m, Stdout) else (set_file m name [], Opened name 0)
  else (m, Null).
(* PetscFPrintf: rank 0 of the communicator writes, the others do nothing *)
Definition PetscFPrintf (comm_rank : nat) (fp : stream) (text : string) (m : machine) : result (machine * stream) :=
  if Nat.eqb comm_rank 0
  then match fp with
       | Stdout => Ret (Machine (files m) (standard_output m ++ [text]), fp)
       | Opened f k => let! c := of_option (files m f) in Ret (set_file m f (write_at c k text), Opened f (S k))
       | Null | Unset => UB
       end
  else Ret (m, fp).

(** ** Processes *)
(* what a process does in the end, as far as the log is concerned: rdysetup.c:1387-1391, and the macro RDyLog *)
Inductive action := Open (file : string) | Log (log_level : nat) (text : string).
(* [global_rank] is the rank in global_comm and [rank] the one in comm: they differ in ensembles *)
Record process := Process { global_rank : nat; rank : nat; level : nat; log : stream; todo : list action }.
(* The macro writes the label, the text and the newline through global_comm (31-35); the three parts are written as one
   message here: no other process writes. *)
Definition line (log_level : nat) (text : string) : result string :=
  let! label := of_option (nth_error RDyLogLabels log_level) in Ret (label ++ text ++ newline)%string.
Definition RDyLog (p : process) (log_level : nat) (text : string) (m : machine) : result (machine * stream) :=
  if Nat.ltb LOG_NONE (level p) && Nat.leb log_level (level p)
  then let! t := line log_level text in PetscFPrintf (global_rank p) (log p) t m
  else Ret (m, log p).
Definition act (p : process) (a : action) (m : machine) : result (machine * stream) :=
  match a with
  | Open file => if String.eqb file "" then Ret (m, Stdout) else Ret (PetscFOpen (rank p) file m)
  | Log l t => RDyLog p l t m
  end.
(* one action of a process; a process that is done does nothing *)
Definition step (p : process) (m : machine) : result (process * machine) :=
  match todo p with
  | [] => Ret (p, m)
  | a :: rest => let! x := act p a m in Ret (Process (global_rank p) (rank p) (level p) (snd x) rest, fst x)
  end.
(* a schedule lists the processes in the order in which they act *)
Fixpoint run (schedule : list nat) (procs : list process) (m : machine) : result (list process * machine) :=
  match schedule with
  | [] => Ret (procs, m)
  | i :: schedule =>
    let! p := of_option (nth_error procs i) in
    let! x := step p m in
    let! procs := of_option (upd procs i (fst x)) in
    run schedule procs (snd x)
  end.
(* the processes at the start: setup opens the file, messages follow *)
Definition start (global_rank rank level : nat) (file : string) (messages : list (nat * string)) : process :=
  Process global_rank rank level Unset (Open file :: map (fun x => Log (fst x) (snd x)) messages).
