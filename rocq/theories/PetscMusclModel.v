(** Second-order runs on the PETSc back end: the arrays of all processes.  The interior operator works on all
    processes together: it exchanges gradients, and adds what it computed for ghost cells to their owners. *)
From Verif Require Import Base RoeModel EdgeModel SourceModel AssemblyModel CeedLayoutModel CeedHRModel CeedRunModel MusclModel CeedMusclModel MusclRunModel PetscRunModel.
Local Open Scope R_scope.
Local Notation length := List.length.

(* swe_petsc.c:137-150: the states of the owned edge [i] from q_reconstructed[i * 6 + 0 .. 5], its left state at
   [off = 0] and its right state at [off = 3] *)
Definition face_state (q : list R) (off i : nat) : option rstate :=
  let* h := nth_error q (i * 6 + off + 0) in
  let* hu := nth_error q (i * 6 + off + 1) in
  let* hv := nth_error q (i * 6 + off + 2) in
  Some (RState (Some (Rmax 0 h)) hu hv (Some 0) (Some 0)).

(* swe_petsc.c:172-205, one owned edge, [e] its position among the owned edges: both cells get their share, owned or
   not.  The Courant number is left out (DiagModel.v). *)
Definition accumulate_edge2 (tiny_h : R) (m : cmesh) (dl dr : list rstate) (fluxes : list (option R)) (f : list R) (ei : nat * nat) : option (list R) :=
  let '(e, edge_id) := ei in
  let l := left_cell m edge_id in
  let r := right_cell m edge_id in
  let* sl := nth_error dl e in
  let* sr := nth_error dr e in
  let* hl := rs_h sl in
  let* hr := rs_h sr in
  if ((hr <? tiny_h) && (hl <? tiny_h))%bool then Some f
  else
    ofold (fun f i =>
      let* f := bump true f (3 * l + i) (scaled fluxes (3 * e + i) (rdiv (- cm_len m edge_id) (cm_area m l))) in
      bump true f (3 * r + i) (scaled fluxes (3 * e + i) (rdiv (cm_len m edge_id) (cm_area m r)))) (seq 0 3) f.

(* swe_petsc.c:130-208 ApplyInteriorFlux2R on one process, after the exchange of gradients, up to rhs_local.  The
   normals are those of the owned edges in their order (:385-400 CreatePetscSWEInteriorFluxOperator). *)
Definition local_interior_flux2 (lim : limiter) (cf : cconfig) (rm : rmesh) (grads : list (list R)) (u : list R) : option (list R) :=
  let m := rm_mesh rm in
  let es := owned_internal m in
  let n := length es in
  let sn := map (cm_sn m) es in
  let cn := map (cm_cn m) es in
  let* q := ReconstructFaceValues lim rm u grads in
  let* dl := omap (face_state q 0) (seq 0 n) in
  let* dr := omap (face_state q 3) (seq 0 n) in
  let dl := ComputeRiemannVelocities (cf_tiny_h cf) (cf_h_anuga cf) dl in
  let dr := ComputeRiemannVelocities (cf_tiny_h cf) (cf_h_anuga cf) dr in
  match cf_riemann cf with
  | RIEMANN_ROE =>
    let* fa := ComputeSWERoeFlux dl dr sn cn in
    ofold (accumulate_edge2 (cf_tiny_h cf) m dl dr (fst fa)) (combine (seq 0 n) es) (repeat 0 (3 * cm_cells m))
  | RIEMANN_UPWIND_ROE => None       (* "Unsupported Riemann solver" *)
  end.

(* swe_petsc.c:98-213 ApplyInteriorFlux2R on all processes: gradients and their exchange (:128-132), the local
   vectors, and DMLocalToGlobal with ADD_VALUES (:210-213) *)
Definition ApplyInteriorFlux2R (lim : limiter) (cf : cconfig) (ps : list sprocess) (us f : list (list R)) : option (list (list R)) :=
  if Nat.eqb (num_comp cf) 3 then
    let* grads := all_gradients (map sp_process ps) us in
    let* ys := omap (fun x => local_interior_flux2 lim cf (sp_rmesh (fst (fst x))) (snd x) (snd (fst x))) (combine (combine ps us) grads) in
    dm_local_to_global_add 3 (map sp_base ps) ys f
  else None.

(* operator.c:656-672 ApplyPetscOperator, the suboperators that stay within a process: fluxes through the boundaries
   (operator.c:374-400 makes the same boundary operators at first and at second order) and sources *)
Definition petsc_rest (cf : cconfig) (dt : R) (p : cprocess) (u f : list R) (sts : list bop) : option (list R * list R * list bop) :=
  let* fs := apply_boundaries cf (cp_mesh p) dt u (combine (cp_bounds p) sts) f in
  let* fp := ApplySource true cf (cp_mesh p) (cp_ext p) (cp_mat p) (fst fs) dt u (fst fs) (repeat 0 (3 * length (owned_cells (cp_mesh p)))) in
  Some (fst fp, snd fp, snd fs).

(* rdysetup.c:1119-1145 OperatorRHSFunction on all processes: the right-hand side and the arrays kept by the
   boundary operators *)
Definition PetscRHSFunction2 (lim : limiter) (cf : cconfig) (dt : R) (ps : list sprocess) (S : list (list bop)) (U : list (list R))
  : option (list (list R) * list (list bop)) :=
  let bs := map sp_base ps in
  let* us := omap (dm_global_to_local 3 U) bs in
  let* fs := ApplyInteriorFlux2R lim cf ps us (map (fun p => repeat 0 (3 * length (owned_cells (cp_mesh p)))) bs) in
  let* rs := omap (fun x => let '(p, u, f, sts) := x in petsc_rest cf dt p u f sts) (combine (combine (combine bs us) fs) S) in
  Some (map (fun r => fst (fst r)) rs, map snd rs).

Definition petsc_muscl_run (i : integrator) (lim : limiter) (cf : cconfig) (steps : list (R * list sprocess)) (x : list (list R) * list (list bop))
  : option (list (list R) * list (list bop)) :=
  ofold (fun x st => state_step (PetscRHSFunction2 lim cf (fst st) (snd st)) i (fst st) x) steps x.
