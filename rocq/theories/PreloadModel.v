(** Warming up before the timed solve (-preload), on the PETSc back end. *)
From Verif Require Import Base AssemblyModel DecompModel CeedLayoutModel CeedRunModel PetscRunModel.

(* rdyadvance.c:238-257 CalibrateSolverTimers: one step on a copy of the solution.  The operator is not copied: what its
   boundaries accumulate (swe_petsc.c:628 VecAXPY) stays.  [warm]: the time step set before (rdyadvance.c:346) and the
   data of the processes. *)
Definition CalibrateSolverTimers (i : integrator) (w : balancing) (cf : cconfig) (warm : R * list cprocess) (x : list (list R) * list (list bop))
  : option (list (list R) * list (list bop)) :=
  let* r := state_step (PetscRHSFunction w cf (fst warm) (snd warm)) i (fst warm) x in Some (fst x, snd r).
(* rdyadvance.c:353-364: PetscPreLoadBegin runs the block twice, first with PetscPreLoadingOn; then time and step number
   are put back and TSSolve works on the solution itself.  Not modelled: how PETSc chooses the length of the steps after a
   warm-up; [steps] are the steps TSSolve takes. *)
Definition advance_solve (preload : bool) (i : integrator) (w : balancing) (cf : cconfig) (warm : R * list cprocess) (steps : list (R * list cprocess))
  (x : list (list R) * list (list bop)) : option (list (list R) * list (list bop)) :=
  let* x := if preload then CalibrateSolverTimers i w cf warm x else Some x in petsc_run i w cf steps x.
