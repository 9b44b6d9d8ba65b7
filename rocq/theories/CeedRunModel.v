(** One evaluation of the right-hand side, and a run, on the libCEED back end: the arrays of all processes,
    from the parts of the global solution to the parts of the global right-hand side. *)
From Coq Require Import String.
From Verif Require Import Base RoeModel EdgeModel HRModel EtaModel SourceModel TracerModel AssemblyModel CeedLayoutModel CeedHRModel.
Local Open Scope R_scope.
Local Notation length := List.length.

(* What one process holds: its mesh and boundaries (with their current values), the external sources and
   material properties of its owned cells, the global ids of its cells, and the point SF of the DM: for every
   local cell the process owning it and the position of the cell in that process's part of a global vector. *)
Record cprocess := CProcess {
  cp_hmesh : hmesh;
  cp_bounds : list cboundary;
  cp_ext : list R;
  cp_mat : list R;
  cp_gid : nat -> nat;            (* cells.global_ids *)
  cp_sf : nat -> nat * nat;
}.
Definition cp_mesh (p : cprocess) : cmesh := hm_mesh (cp_hmesh p).

(* operator.c:186-195: which operators were created; [file]: grid.cell_elevation.file is set *)
Inductive balancing := Standard | Hydrostatic (file : bool).

(* operator.c:560-588: zero the local right-hand side and add the flux operators.  Without well-balancing the
   elevations of the vertices are those set at creation (operator_fluxes_ceed.c). *)
Definition local_flux (w : balancing) (cf : cconfig) (dt : R) (p : cprocess) (u : list R) : option (list R) :=
  match w with
  | Standard => flux_rhs cf (cp_mesh p) (initial_eta (cp_mesh p)) dt (cp_bounds p) u
  | Hydrostatic file => hr_flux_rhs cf file (cp_hmesh p) dt (cp_bounds p) u
  end.
(* operator.c:608-637 *)
Definition local_source (w : balancing) (cf : cconfig) (dt : R) (p : cprocess) (u div : list R) : option (list R) :=
  match w with
  | Standard => source_rhs cf (cp_mesh p) (cp_ext p) (cp_mat p) div dt u
  | Hydrostatic _ => hr_source_rhs cf (cp_mesh p) (cp_ext p) (cp_mat p) div dt u
  end.

(* DMGlobalToLocal(INSERT_VALUES) (rdysetup.c:1137-1138) *)
Definition dm_global_to_local (n : nat) (global : list (list R)) (p : cprocess) : option (list R) :=
  let* rows := omap (fun c => let* x := nth_error global (fst (cp_sf p c)) in fetch x (snd (cp_sf p c) * n) n) (seq 0 (cm_cells (cp_mesh p))) in
  Some (concat rows).

(* DMLocalToGlobal(ADD_VALUES) (operator.c:591-592): every local entry is added to the entry it is a copy of *)
Definition add_cell (n : nat) (p : cprocess) (f_local : list R) (global : list (list R)) (c : nat) : option (list (list R)) :=
  let* v := fetch f_local (c * n) n in
  let* x := nth_error global (fst (cp_sf p c)) in
  let* x' := add_into x (snd (cp_sf p c) * n) v in
  upd global (fst (cp_sf p c)) x'.
Definition add_process (n : nat) (global : list (list R)) (pf : cprocess * list R) : option (list (list R)) :=
  ofold (add_cell n (fst pf) (snd pf)) (seq 0 (cm_cells (cp_mesh (fst pf)))) global.
Definition dm_local_to_global_add (n : nat) (ps : list cprocess) (fs : list (list R)) (global : list (list R)) : option (list (list R)) :=
  ofold (add_process n) (combine ps fs) global.

(* operator.c:501-647 ApplyCeedOperator on all processes (first order, no Bradford-Sanders well-balancing) *)
Definition ApplyCeedOperator (w : balancing) (cf : cconfig) (dt : R) (ps : list cprocess) (us : list (list R)) : option (list (list R)) :=
  let n := num_comp cf in
  let* fs := omap (fun pu => local_flux w cf dt (fst pu) (snd pu)) (combine ps us) in
  let* divs := dm_local_to_global_add n ps fs (map (fun p => repeat 0 (n * length (owned_cells (cp_mesh p)))) ps) in
  omap (fun x => local_source w cf dt (fst (fst x)) (snd (fst x)) (snd x)) (combine (combine ps us) divs).

(* rdysetup.c:1119-1145 OperatorRHSFunction *)
Definition OperatorRHSFunction (w : balancing) (cf : cconfig) (dt : R) (ps : list cprocess) (U : list (list R)) : option (list (list R)) :=
  let* us := omap (dm_global_to_local (num_comp cf) U) ps in
  ApplyCeedOperator w cf dt ps us.

(** ** Time stepping on global vectors *)

(* y + a x, entry by entry, on every process *)
Definition waxpy (y : list (list R)) (a : R) (x : list (list R)) : list (list R) :=
  map (fun q => map (fun e => fst e + a * snd e) (combine (fst q) (snd q))) (combine y x).

(* TSEULER and TSRK4 (rdysetup.c:1183-1190), as in AssemblyModel *)
Definition vec_euler (F : list (list R) -> option (list (list R))) (dt : R) (U : list (list R)) : option (list (list R)) :=
  let* K := F U in Some (waxpy U dt K).
Definition vec_rk4 (F : list (list R) -> option (list (list R))) (dt : R) (U : list (list R)) : option (list (list R)) :=
  let* K1 := F U in
  let* K2 := F (waxpy U (dt / 2) K1) in
  let* K3 := F (waxpy U (dt / 2) K2) in
  let* K4 := F (waxpy U dt K3) in
  Some (waxpy (waxpy (waxpy (waxpy U (dt / 6) K1) (dt / 3) K2) (dt / 3) K3) (dt / 6) K4).
Definition vec_step (i : integrator) := match i with Euler => vec_euler | RK4 => vec_rk4 end.

(* a run: for every step its length and what the processes hold during it *)
Definition ceed_run (i : integrator) (w : balancing) (cf : cconfig) (steps : list (R * list cprocess)) (U : list (list R)) : option (list (list R)) :=
  ofold (fun U st => vec_step i (OperatorRHSFunction w cf (fst st) (snd st)) (fst st) U) steps U.
