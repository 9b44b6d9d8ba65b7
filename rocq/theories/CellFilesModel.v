(** Binary files with values for every cell: reading them on all processes, and elevations of cells from a file
    (src/rdydata.c:583-624, src/rdysetup.c:825-851, 881-907, 1081-1099). *)
From Coq Require Import String.
From Verif Require Import SetupModel CheckpointModel GridModel QueriesModel FortranDriverModel.
From Verif Require Import Base CeedLayoutModel CeedHRModel CeedRunModel PetscRunModel.
Local Open Scope nat_scope.
Local Notation length := List.length.

(* DMPlexCreateNaturalVector: on several processes only with the map made when the mesh was distributed, which is not
   made again after a refinement (rdydm.c:61-72; rdyamr.c:628 asks for it, but a refined DM has no migration SF to make
   it from).  [nproc]: processes, [refinements]: amr.num_refinements. *)
Definition natural_available (nproc refinements : nat) : bool := (Nat.eqb nproc 1 || Nat.eqb refinements 0)%bool.
(* rdydata.c:583-606 RDyReadOneDOFGlobalVecFromBinaryFile with [n] components for each cell: VecLoad refuses a file of
   another length; the parts of all processes one after the other.  On one process natural and global order are the same. *)
Definition read_global (n refinements : nat) (num : numbering) (nproc : nat) (file : list R) : result (list R) :=
  check (natural_available nproc refinements)
  (check (Nat.eqb (length file) (n * length num))
  (of_option (gather_blocks n num file))).
(* rdydata.c:609-624 RDyReadOneDOFLocalVecFromBinaryFile (n = 1); the same calls in rdysetup.c:881-907
   ReadSingleComponentFromFile (n = 1) and 825-851 (n = 3): the local vectors of all processes *)
Definition read_local (n refinements : nat) (num : numbering) (ps : list cprocess) (file : list R) : result (list (list R)) :=
  let! global := read_global n refinements num (length ps) file in
  of_option (omap (dm_global_to_local n (parts (map (fun p => n * length (owned_cells (cp_mesh p))) ps) global)) ps).

(* cells->centroids[icell].X[2] = z *)
Definition set_centroid_z (hm : hmesh) (icell : nat) (z : R) : hmesh :=
  HMesh (hm_mesh hm) (hm_offsets hm) (hm_vertices hm) (hm_count hm) (fun c => if Nat.eqb c icell then z else hm_centroid_z hm c).
(* rdysetup.c:1081-1099 OverrideCellElevation on one process: the loop over all local cells *)
Definition override_loop (hm : hmesh) (elev : list R) : option hmesh :=
  ofold (fun hm icell => let* z := nth_error elev icell in Some (set_centroid_z hm icell z)) (seq 0 (cm_cells (hm_mesh hm))) hm.
Definition with_hmesh (p : cprocess) (hm : hmesh) : cprocess := CProcess hm (cp_bounds p) (cp_ext p) (cp_mat p) (cp_gid p) (cp_sf p).
Definition OverrideCellElevation (refinements : nat) (num : numbering) (file : list R) (ps : list cprocess) : result (list cprocess) :=
  let! local := read_local 1 refinements num ps file in
  of_option (omap (fun pe => let* hm := override_loop (cp_hmesh (fst pe)) (snd pe) in Some (with_hmesh (fst pe) hm)) (combine ps local)).
(* rdysetup.c:1507-1512 and rdyamr.c:650-655: the mesh of a run; [file]: contents of grid.cell_elevation.file if it is set *)
Definition set_elevations (refinements : nat) (num : numbering) (file : option (list R)) (ps : list cprocess) : result (list cprocess) :=
  match file with Some f => OverrideCellElevation refinements num f ps | None => Ret ps end.
(* which elevations the operators take (swe_petsc.c:1213, operator_fluxes_hydro_recon_ceed.c:121) *)
Definition balancing_of (hydrostatic : bool) (file : option (list R)) : balancing :=
  if hydrostatic then Hydrostatic (match file with Some _ => true | None => false end) else Standard.
(* The steps of a run: the elevations are set once, before the first step, in the mesh all steps share; here they are
   set in the data of each step, which holds that mesh. *)
Definition run_elevations (refinements : nat) (num : numbering) (file : option (list R)) (steps : list (R * list cprocess)) : result (list (R * list cprocess)) :=
  rmap (fun st => let! ps := set_elevations refinements num file (snd st) in Ret (fst st, ps)) steps.
