(* What a user expects of the directories of a run, whatever the order in which the processes take their steps *)
From Coq Require Import List Arith ZArith Bool String.
From Verif Require Import DirectoriesModel.
Import ListNotations.
Local Open Scope nat_scope.

(* the state after some schedule *)
Definition after (cfg : setup) (denied : path -> bool) (f : files) (schedule : list nat) : state :=
  run cfg denied schedule (start cfg f).
(* process [p] has made its directories and opened its files *)
Definition finished (s : state) (p : nat) : Prop := stat (procs s p) = Running /\ todo (procs s p) = [].
(* process [p] is done, or gave up with an error *)
Definition returned (s : state) (p : nat) : Prop :=
  finished s p \/ (exists d, stat (procs s p) = NoDirectory d) \/ (exists f, stat (procs s p) = NoFile f).
(* process [p] has made its directories: it is about to open files or has done so *)
Definition past_creation (cfg : setup) (s : state) (p : nat) : Prop :=
  exists j, todo (procs s p) = map Open (skipn j (opens cfg p)).

(* a directory the run needs: one of those asked for, or the one of a member within it *)
Definition needed (cfg : setup) (d : path) : Prop :=
  exists D, In D (dirs cfg) /\ (d = D \/ exists p, p < nproc cfg /\ d = own_dir cfg p D).

(* Nothing stands in the way of the directories and files of the run *)
Record usable (cfg : setup) (denied : path -> bool) (f : files) : Prop := Usable {
  (* the directory in which a directory is to be made exists, from the working directory on *)
  u_above : forall D a b, In D (dirs cfg) -> D = a ++ b -> b <> [] -> f a = Some Directory;
  (* the name of a member of an ensemble has no slash *)
  u_name : ensemble cfg = true -> forall p, p < nproc cfg -> exists x, name cfg (member_of cfg p) = [x];
  (* a directory that is needed may exist already; no file has its name and the user may create it *)
  u_dir : forall d, needed cfg d -> f d <> Some File /\ denied d = false;
  (* the files are in the directories of their process; they may be there already, and do not have the name of a directory *)
  u_file : forall p x, p < nproc cfg -> In x (opens cfg p) ->
    (exists D b, In D (dirs cfg) /\ x = own_dir cfg p D ++ [b]) /\ ~ needed cfg x /\ f x <> Some Directory /\ denied x = false;
}.
