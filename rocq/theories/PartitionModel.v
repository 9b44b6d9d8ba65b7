(** The number of cells of the whole mesh and the statistics of its partition (src/rdymesh.c:1420-1433,
    src/rdydata.c:6-17, src/rdysetup.c:1336-1366). *)
From Verif Require Import Base SetupModel.
Local Open Scope Z_scope.

(** ** MPI and PETSc *)
(* the range of a C int, which is what MPI_INT and MPI_INTEGER carry *)
Definition INT_MAX : Z := 2147483647.
(* An entry of MPI type MPI_INT read from a PetscInt: the number itself if it fits.  If PetscInt has 64 bits it is the
   lower half of the number (on the little-endian machines the code is made for); what is read of a number that does
   not fit is not defined here. *)
Definition as_int (n : Z) : result Z := if (0 <=? n) && (n <=? INT_MAX) then Ret n else UB.
(* MPI_Allreduce with MPI_SUM of one MPI_INTEGER per process into a PetscInt that was zero before (rdymesh.c:1402).
   An overflow is not defined.  The counts are not negative, so a sum that fits has no partial sum that does not,
   whatever order MPI adds them in. *)
Definition MPI_Allreduce_sum (counts : list Z) : result Z :=
  let! ints := rmap as_int counts in as_int (fold_left Z.add ints 0).
(* MPI_Gather of one MPI_INT per process: the numbers in the order of ranks, on rank 0 *)
Definition MPI_Gather (counts : list Z) : result (list Z) := rmap as_int counts.
(* PetscSortMPIInt: into ascending order *)
Fixpoint insert (a : Z) (l : list Z) : list Z :=
  match l with [] => [a] | b :: t => if a <=? b then a :: b :: t else b :: insert a t end.
Fixpoint PetscSortMPIInt (l : list Z) : list Z :=
  match l with [] => [] | a :: t => insert a (PetscSortMPIInt t) end.

(** ** rdymesh.c, rdydata.c *)
(* rdymesh.c:1421-1426; [is_owned] has an entry for every cell the process holds *)
Definition count_owned (is_owned : list bool) : Z := fold_left (fun n o => if o : bool then n + 1 else n) is_owned 0.
(* rdymesh.c:1433 on all processes; also RDyGetNumGlobalCells (rdydata.c:6-10) *)
Definition num_cells_global (procs : list (list bool)) : result Z := MPI_Allreduce_sum (map count_owned procs).
(* rdydata.c:12-16 *)
Definition RDyGetNumOwnedCells (procs : list (list bool)) (rank : nat) : result Z :=
  of_option (nth_error (map count_owned procs) rank).

(** ** rdysetup.c *)
(* 1346-1360, what is logged; [st_ratio] is None if the quotient is infinite or not a number *)
Record statistics := Statistics { st_total : Z; st_min : Z; st_max : Z; st_median : Z; st_ratio : option R }.
(* 1349 *)
Definition median_index (comm_size : Z) : Z := if Z.eqb (Z.rem comm_size 2) 0 then Z.quot comm_size 2 - 1 else Z.quot comm_size 2.
(* an entry of the array of length nproc *)
Definition entry (l : list Z) (i : Z) : result Z := if i <? 0 then UB else of_option (nth_error l (Z.to_nat i)).
(* 1336-1366 on rank 0 *)
Definition OutputPartitionStatistics (procs : list (list bool)) : result statistics :=
  let! total := num_cells_global procs in
  let! gathered := MPI_Gather (map count_owned procs) in
  let comm_size := Z.of_nat (length procs) in
  let l := PetscSortMPIInt gathered in
  let! min := entry l 0 in
  let! max := entry l (comm_size - 1) in
  let! median := entry l (median_index comm_size) in
  Ret (Statistics total min max median (rdiv (IZR max) (IZR median))).
