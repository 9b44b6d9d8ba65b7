(** Second-order runs on the libCEED back end: the arrays of all processes, with the gradients exchanged between
    them in every evaluation of the right-hand side. *)
From Coq Require Import String.
From Verif Require Import Base RoeModel EdgeModel EtaModel SourceModel TracerModel AssemblyModel CeedLayoutModel CeedHRModel CeedRunModel MusclModel CeedMusclModel.
Local Open Scope R_scope.
Local Notation length := List.length.

(* what one process holds: as in CeedRunModel, and the centroids of its cells and the points of its vertices
   (rdymeshimpl.h: cells.centroids, vertices.points) *)
Record sprocess := SProcess { sp_base : cprocess; sp_centroid : nat -> pt; sp_point : nat -> pt }.
Definition sp_rmesh (p : sprocess) : rmesh := RMesh (cp_mesh (sp_base p)) (sp_centroid p) (sp_point p).
(* the gradients are exchanged through the DM of the solution: operator.c:546, operator_fluxes_ceed.c:1057-1108 *)
Definition sp_process (p : sprocess) : process := Process (sp_rmesh p) (cp_sf (sp_base p)).

(* operator.c:501-647 ApplyCeedOperator on all processes with ceed.use_slope_reconstruction: gradients of all local
   cells, their exchange (:542-546), face values and fluxes (:548-588), the sum over processes (:591-592) and the
   sources (:608-637).  The coefficients of the gradients are computed once, when the operator is created, from
   data that do not change.  [dt_muscl]: the time step in the context of the second-order operator. *)
Definition ApplyCeedOperator2 (lim : limiter) (cf : cconfig) (dt_muscl dt : R) (ps : list sprocess) (us : list (list R)) : option (list (list R)) :=
  let* grads := all_gradients (map sp_process ps) us in
  let* fs := omap (fun x => let p := fst (fst x) in
                            muscl_flux_rhs lim cf (sp_rmesh p) (initial_eta (cp_mesh (sp_base p))) (snd x) dt_muscl dt (cp_bounds (sp_base p)) (snd (fst x)))
                  (combine (combine ps us) grads) in
  let bs := map sp_base ps in
  let* divs := dm_local_to_global_add 3 bs fs (map (fun p => repeat 0 (3 * length (owned_cells (cp_mesh p)))) bs) in
  omap (fun x => local_source Standard cf dt (fst (fst x)) (snd (fst x)) (snd x)) (combine (combine bs us) divs).

(* rdysetup.c:1119-1145 OperatorRHSFunction *)
Definition OperatorRHSFunction2 (lim : limiter) (cf : cconfig) (dt_muscl dt : R) (ps : list sprocess) (U : list (list R)) : option (list (list R)) :=
  let* us := omap (dm_global_to_local 3 U) (map sp_base ps) in
  ApplyCeedOperator2 lim cf dt_muscl dt ps us.

(* a run: for every step its length and what the processes hold during it *)
Definition muscl_run (i : integrator) (lim : limiter) (cf : cconfig) (dt_muscl : R) (steps : list (R * list sprocess)) (U : list (list R)) : option (list (list R)) :=
  ofold (fun U st => vec_step i (OperatorRHSFunction2 lim cf dt_muscl (fst st) (snd st)) (fst st) U) steps U.
