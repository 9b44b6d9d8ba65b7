(** The PETSc back end at the level of flat arrays: the flow operators on one process, one evaluation of the
    right-hand side on all processes, and runs.  The arrays of an operator that outlive one evaluation (states on
    boundary edges, recorded boundary fluxes) are threaded through. *)
From Verif Require Import Base RoeModel EdgeModel HRModel SourceModel AssemblyModel CeedLayoutModel CeedHRModel CeedRunModel.
Local Open Scope R_scope.
Local Notation length := List.length.

(** ** Riemann states on a list of edges *)

(* swe_types_petsc.h RiemannStateData, one entry of each of its arrays h, hu, hv, u, v.  [None]: not a finite
   number.  (The five arrays of the same length are modelled as one array of records.) *)
Record rstate := RState { rs_h : option R; rs_hu : R; rs_hv : R; rs_u : option R; rs_v : option R }.
(* PetscCalloc1 *)
Definition rstate0 : rstate := RState (Some 0) 0 0 (Some 0) (Some 0).

(* swe_petsc.c:53-71 ComputeRiemannVelocities *)
Definition riemann_velocity (tiny_h h_anuga : R) (s : rstate) : rstate :=
  match rs_h s with
  | None => RState None (rs_hu s) (rs_hv s) None None
  | Some h =>
    if h <? tiny_h then RState (Some h) (rs_hu s) (rs_hv s) (Some 0) (Some 0)
    else let denom := h * h + h_anuga * h_anuga in
         RState (Some h) (rs_hu s) (rs_hv s) (rdiv (rs_hu s * h) denom) (rdiv (rs_hv s * h) denom)
  end.
Definition ComputeRiemannVelocities (tiny_h h_anuga : R) (d : list rstate) : list rstate := map (riemann_velocity tiny_h h_anuga) d.

Definition rs_prim (s : rstate) : option prim :=
  let* h := rs_h s in let* u := rs_u s in let* v := rs_v s in Some (Prim h u v).

(* swe_roe_flux_petsc.h:90-135 ComputeSWERoeFlux: the fluxes (three for each edge) and wave speeds of all edges.
   A flux that is not finite is only stored. *)
Definition roe_at (dl dr : list rstate) (sn cn : list R) (i : nat) : option (option (vec3 * R)) :=
  let* l := nth_error dl i in
  let* r := nth_error dr i in
  let* s := nth_error sn i in
  let* c := nth_error cn i in
  Some (let* L := rs_prim l in let* Rt := rs_prim r in petsc_roe_flux L Rt s c).
Definition flux3 (o : option (vec3 * R)) : list (option R) :=
  match o with Some p => map Some (comps3 (fst p)) | None => [None; None; None] end.
Definition ComputeSWERoeFlux (dl dr : list rstate) (sn cn : list R) : option (list (option R) * list (option R)) :=
  let* rs := omap (roe_at dl dr sn cn) (seq 0 (length dl)) in
  Some (concat (map flux3 rs), map (fun o => let* p := o in Some (snd p)) rs).

(* h, hu and hv of the cell [c], from u_ptr[n_dof * c + 0], [... + 1] and [... + 2] *)
Definition load (u : list R) (c : nat) : option rstate :=
  let* h := nth_error u (3 * c + 0) in
  let* hu := nth_error u (3 * c + 1) in
  let* hv := nth_error u (3 * c + 2) in
  Some (RState (Some h) hu hv (Some 0) (Some 0)).

(* f_ptr[k] += v, performed if [own] (the test of cells->is_owned) *)
Definition bump (own : bool) (f : list R) (k : nat) (v : option R) : option (list R) :=
  if own then let* x := v in let* a := nth_error f k in upd f k (a + x) else Some f.
(* fluxes[k] * s *)
Definition scaled (fluxes : list (option R)) (k : nat) (s : option R) : option R :=
  let* o := nth_error fluxes k in let* v := o in let* s := s in Some (v * s).

(** ** Interior edges *)

(* swe_petsc.c:276-307, one edge: [e] its position in internal_edge_ids and in the arrays of the operator.
   The Courant number is left out (DiagModel.v). *)
Definition accumulate_edge (tiny_h : R) (m : cmesh) (dl dr : list rstate) (fluxes : list (option R)) (f : list R) (ei : nat * nat) : option (list R) :=
  let '(e, edge_id) := ei in
  let l := left_cell m edge_id in
  let r := right_cell m edge_id in
  let* sl := nth_error dl e in
  let* sr := nth_error dr e in
  let* hl := rs_h sl in
  let* hr := rs_h sr in
  if ((hr <? tiny_h) && (hl <? tiny_h))%bool then Some f
  else
    ofold (fun f i =>
      let* f := bump (cm_owned m l) f (3 * cm_l2o m l + i) (scaled fluxes (3 * e + i) (rdiv (- cm_len m edge_id) (cm_area m l))) in
      bump (cm_owned m r) f (3 * cm_l2o m r + i) (scaled fluxes (3 * e + i) (rdiv (cm_len m edge_id) (cm_area m r)))) (seq 0 3) f.

(* swe_petsc.c:335-410 CreatePetscSWEInteriorFluxOperator: sn and cn in the order of internal_edge_ids;
   :215-316 ApplyInteriorFlux (first order).  Internal edges have two cells, so the tests of
   right_local_cell_id != -1 are left out. *)
Definition ApplyInteriorFlux (cf : cconfig) (m : cmesh) (u f : list R) : option (list R) :=
  let sn := map (cm_sn m) (cm_internal m) in
  let cn := map (cm_cn m) (cm_internal m) in
  let* dl := omap (fun edge_id => load u (left_cell m edge_id)) (cm_internal m) in
  let* dr := omap (fun edge_id => load u (right_cell m edge_id)) (cm_internal m) in
  let dl := ComputeRiemannVelocities (cf_tiny_h cf) (cf_h_anuga cf) dl in
  let dr := ComputeRiemannVelocities (cf_tiny_h cf) (cf_h_anuga cf) dr in
  match cf_riemann cf with
  | RIEMANN_ROE =>
    let* fa := ComputeSWERoeFlux dl dr sn cn in
    ofold (accumulate_edge (cf_tiny_h cf) m dl dr (fst fa)) (combine (seq 0 (length (cm_internal m))) (cm_internal m)) f
  | RIEMANN_UPWIND_ROE => None       (* "Unsupported Riemann solver" *)
  end.

(* swe_petsc.c:1210-1226 CreatePetscSWEInteriorFluxHROperator: zc of every local cell *)
Definition cell_beds (file : bool) (hm : hmesh) : option (list R) := omap (bed_elevation file hm) (seq 0 (cm_cells (hm_mesh hm))).

(* swe_petsc.c:1034-1078: the reconstructed states of one edge.  hu and hv are not written, nor are they read. *)
Definition hr_states (tiny_h h_anuga : R) (m : cmesh) (zc u : list R) (edge_id : nat) : option (rstate * rstate) :=
  let l := left_cell m edge_id in
  let r := right_cell m edge_id in
  let* h_L := nth_error u (3 * l + 0) in
  let* hu_L := nth_error u (3 * l + 1) in
  let* hv_L := nth_error u (3 * l + 2) in
  let* h_R := nth_error u (3 * r + 0) in
  let* hu_R := nth_error u (3 * r + 1) in
  let* hv_R := nth_error u (3 * r + 2) in
  let* zc_L := nth_error zc l in
  let* zc_R := nth_error zc r in
  let z_max := Rmax zc_L zc_R in
  let hL_rec := Rmax 0 (h_L + zc_L - z_max) in
  let hR_rec := Rmax 0 (h_R + zc_R - z_max) in
  let denom_L := h_L * h_L + h_anuga * h_anuga in
  let denom_R := h_R * h_R + h_anuga * h_anuga in
  let vel h hu denom := if tiny_h <? h then rdiv (hu * h) denom else Some 0 in
  Some (RState (Some hL_rec) 0 0 (vel h_L hu_L denom_L) (vel h_L hv_L denom_L),
        RState (Some hR_rec) 0 0 (vel h_R hu_R denom_R) (vel h_R hv_R denom_R)).

(* swe_petsc.c:1091-1157, one edge *)
Definition accumulate_edge_hr (tiny_h : R) (m : cmesh) (zc u sn cn : list R) (fluxes : list (option R)) (f : list R) (ei : nat * nat) : option (list R) :=
  let '(e, edge_id) := ei in
  let l := left_cell m edge_id in
  let r := right_cell m edge_id in
  let* h_L := nth_error u (3 * l + 0) in
  let* h_R := nth_error u (3 * r + 0) in
  if ((h_R <? tiny_h) && (h_L <? tiny_h))%bool then Some f
  else
    let* zc_L := nth_error zc l in
    let* zc_R := nth_error zc r in
    let z_max := Rmax zc_L zc_R in
    let hL_rec := Rmax 0 (h_L + zc_L - z_max) in
    let hR_rec := Rmax 0 (h_R + zc_R - z_max) in
    let scale_l := rdiv (- cm_len m edge_id) (cm_area m l) in
    let scale_r := rdiv (cm_len m edge_id) (cm_area m r) in
    let lo := cm_l2o m l in
    let ro := cm_l2o m r in
    let* f :=
      if ((tiny_h <? hL_rec) || (tiny_h <? hR_rec))%bool then
        ofold (fun f i =>
          let* f := bump (cm_owned m l) f (3 * lo + i) (scaled fluxes (3 * e + i) scale_l) in
          bump (cm_owned m r) f (3 * ro + i) (scaled fluxes (3 * e + i) scale_r)) (seq 0 3) f
      else Some f in
    let corr_L := 1/2 * GRAVITY * (h_L * h_L - hL_rec * hL_rec) in
    let corr_R := 1/2 * GRAVITY * (h_R * h_R - hR_rec * hR_rec) in
    let* c := nth_error cn e in
    let* s := nth_error sn e in
    let* f := bump (cm_owned m l) f (3 * lo + 1) (let* w := scale_l in Some (corr_L * c * w)) in
    let* f := bump (cm_owned m l) f (3 * lo + 2) (let* w := scale_l in Some (corr_L * s * w)) in
    let* f := bump (cm_owned m r) f (3 * ro + 1) (let* w := scale_r in Some (corr_R * c * w)) in
    bump (cm_owned m r) f (3 * ro + 2) (let* w := scale_r in Some (corr_R * s * w)).

(* swe_petsc.c:1000-1165 ApplyInteriorFluxHR *)
Definition ApplyInteriorFluxHR (cf : cconfig) (m : cmesh) (zc u f : list R) : option (list R) :=
  let sn := map (cm_sn m) (cm_internal m) in
  let cn := map (cm_cn m) (cm_internal m) in
  let* ds := omap (hr_states (cf_tiny_h cf) (cf_h_anuga cf) m zc u) (cm_internal m) in
  match cf_riemann cf with
  | RIEMANN_ROE =>
    let* fa := ComputeSWERoeFlux (map fst ds) (map snd ds) sn cn in
    ofold (accumulate_edge_hr (cf_tiny_h cf) m zc u sn cn (fst fa)) (combine (seq 0 (length (cm_internal m))) (cm_internal m)) f
  | RIEMANN_UPWIND_ROE => None
  end.

(** ** Boundary edges *)

(* what one boundary operator keeps between evaluations: the right states, and the vectors boundary_fluxes and
   boundary_fluxes_accum of its boundary (operator.c) *)
Record bop := BOp { bo_right : list rstate; bo_fluxes : list (option R); bo_accum : list (option R) }.

(* swe_petsc.c:434-461 ApplyReflectingBC, one edge; the right state of an edge whose cell is not owned stays what
   it was *)
Definition reflect_state (m : cmesh) (x : nat * (rstate * rstate * (R * R))) : rstate * rstate :=
  let '(edge_id, (l, r, (sn, cn))) := x in
  if cm_owned m (left_cell m edge_id) then
    let dum1 := sn * sn - cn * cn in
    let dum2 := 2 * sn * cn in
    (l, RState (rs_h l) (rs_hu r) (rs_hv r)
          (let* u := rs_u l in let* v := rs_v l in Some (u * dum1 - v * dum2))
          (let* u := rs_u l in let* v := rs_v l in Some (- u * dum2 - v * dum1)))
  else (l, r).

(* swe_petsc.c:465-503 ApplyCriticalOutflowBC, one edge: left and right states *)
Definition outflow_state (m : cmesh) (x : nat * (rstate * rstate * (R * R))) : rstate * rstate :=
  let '(edge_id, (l, r, (sn, cn))) := x in
  if cm_owned m (left_cell m edge_id) then
    match rs_prim l with
    | Some L =>
      let uperp := pu L * cn + pv L * sn in
      if uperp <? 0 then (RState (Some 0) (rs_hu l) (rs_hv l) (Some 0) (Some 0), RState (Some 0) (rs_hu r) (rs_hv r) (Some 0) (Some 0))
      else
        let q := ph L * Rabs uperp in
        let h := let* x := rdiv (q * q) GRAVITY in rcbrt x in
        let velocity := let* h := h in rsqrt (GRAVITY * h) in
        (l, RState h (rs_hu r) (rs_hv r) (let* w := velocity in Some (w * cn)) (let* w := velocity in Some (w * sn)))
    | None => (l, RState None (rs_hu r) (rs_hv r) None None)
    end
  else (l, r).

(* swe_petsc.c:586-612, one edge of a boundary, [e] its position *)
Definition accumulate_bedge (tiny_h : R) (m : cmesh) (dl dr : list rstate) (fluxes : list (option R)) (f : list R) (ei : nat * nat) : option (list R) :=
  let '(e, edge_id) := ei in
  let c := left_cell m edge_id in
  if cm_owned m c then
    let* sl := nth_error dl e in
    let* sr := nth_error dr e in
    let* hl := rs_h sl in
    let* hr := rs_h sr in
    if ((hl <? tiny_h) && (hr <? tiny_h))%bool then Some f
    else ofold (fun f i => bump true f (3 * cm_l2o m c + i) (scaled fluxes (3 * e + i) (rdiv (- cm_len m edge_id) (cm_area m c)))) (seq 0 3) f
  else Some f.

(* VecAXPY(boundary_fluxes_accum, dt, boundary_fluxes) *)
Definition axpy_opt (y : list (option R)) (a : R) (x : list (option R)) : list (option R) :=
  map (fun p => let* v := fst p in let* w := snd p in Some (v + a * w)) (combine y x).

(* swe_petsc.c:506-630 ApplyBoundaryFlux (and :645-690: sn and cn in the order of the boundary's edges) *)
Definition ApplyBoundaryFlux (cf : cconfig) (m : cmesh) (b : cboundary) (dt : R) (u : list R) (st : bop) (f : list R) : option (list R * bop) :=
  let sn := map (cm_sn m) (cb_edges b) in
  let cn := map (cm_cn m) (cb_edges b) in
  let* dl := omap (fun edge_id => load u (left_cell m edge_id)) (cb_edges b) in
  let dl := ComputeRiemannVelocities (cf_tiny_h cf) (cf_h_anuga cf) dl in
  let edges := combine (cb_edges b) (combine (combine dl (bo_right st)) (combine sn cn)) in
  let* ds :=
    match cb_type b with
    | DIRICHLET =>
      let* dr := omap (load (cb_values b)) (seq 0 (length (cb_edges b))) in
      Some (dl, ComputeRiemannVelocities (cf_tiny_h cf) (cf_h_anuga cf) dr)
    | REFLECTING => let ds := map (reflect_state m) edges in Some (map fst ds, map snd ds)
    | CRITICAL_OUTFLOW => let ds := map (outflow_state m) edges in Some (map fst ds, map snd ds)
    end in
  let '(dl, dr) := ds in
  match cf_riemann cf with
  | RIEMANN_ROE =>
    let* fa := ComputeSWERoeFlux dl dr sn cn in
    let* f := ofold (accumulate_bedge (cf_tiny_h cf) m dl dr (fst fa)) (combine (seq 0 (length (cb_edges b))) (cb_edges b)) f in
    Some (f, BOp dr (fst fa) (axpy_opt (bo_accum st) dt (fst fa)))
  | RIEMANN_UPWIND_ROE => None
  end.

(** ** Sources *)

(* swe_petsc.c:733-790 ApplySourceSemiImplicit and :850-917 ApplySourceImplicitXQ2018, one cell: the right-hand
   side [f] and the primitive variables [pv] *)
Definition put (x : list R) (k : nat) (v : option R) : option (list R) := let* w := v in upd x k w.
Definition source_cell (fr : friction) (bed : bool) (cf : cconfig) (m : cmesh) (ext mat div : list R) (dt : R) (u : list R) (fp : list R * list R) (c : nat)
  : option (list R * list R) :=
  let '(f, pv) := fp in
  if cm_owned m c then
    let o := cm_l2o m c in
    let* h := nth_error u (3 * c + 0) in
    let* hu := nth_error u (3 * c + 1) in
    let* hv := nth_error u (3 * c + 2) in
    let* F0 := nth_error div (3 * o + 0) in
    let* F1 := nth_error div (3 * o + 1) in
    let* F2 := nth_error div (3 * o + 2) in
    let* s0 := nth_error ext (3 * o + 0) in
    let* s1 := nth_error ext (3 * o + 1) in
    let* s2 := nth_error ext (3 * o + 2) in
    let* n := nth_error mat (1 * o + 0) in
    let* s := petsc_source fr bed dt (cf_tiny_h cf) n (cm_dzdx m c) (cm_dzdy m c) (V3 h hu hv) (V3 F0 F1 F2) (V3 s0 s1 s2) in
    let* f := bump true f (3 * o + 0) (Some (c0 s)) in
    let* f := bump true f (3 * o + 1) (Some (c1 s)) in
    let* f := bump true f (3 * o + 2) (Some (c2 s)) in
    let denom := h * h + cf_h_anuga cf * cf_h_anuga cf in
    let* pv := put pv (3 * o + 0) (Some h) in
    let* pv := put pv (3 * o + 1) (if cf_tiny_h cf <=? h then rdiv (hu * h) denom else Some 0) in
    let* pv := put pv (3 * o + 2) (if cf_tiny_h cf <=? h then rdiv (hv * h) denom else Some 0) in
    Some (f, pv)
  else Some (f, pv).

(* swe_petsc.c:738-741: n_dof = size / mesh->num_owned_cells, an integer division; [None]: by zero, or refused *)
Definition dofs_of_sources (m : cmesh) (ext : list R) : option nat :=
  let n := length (owned_cells m) in
  if Nat.eqb n 0 then None else if Nat.eqb (length ext / n) 3 then Some (length ext / n)%nat else None.
(* swe_petsc.c:950-984, 1250-1262: the method chosen *)
Definition petsc_friction (cf : cconfig) : option friction :=
  match cf_source cf with
  | SOURCE_SEMI_IMPLICIT => Some SemiImplicit
  | SOURCE_IMPLICIT_XQ2018 => Some (XQ2018 (cf_xq_threshold cf))
  | SOURCE_ARK_IMEX => None         (* "Only semi_implicit and implicit_xq2018 are supported in the PETSc version" *)
  end.
Definition ApplySource (bed : bool) (cf : cconfig) (m : cmesh) (ext mat div : list R) (dt : R) (u f pv : list R) : option (list R * list R) :=
  let* fr := petsc_friction cf in
  let* _ := dofs_of_sources m ext in
  ofold (source_cell fr bed cf m ext mat div dt u) (seq 0 (cm_cells m)) (f, pv).

(** ** The whole operator *)

(* operator_fluxes_petsc.c:24-109, petsc_operator.c:42-60: suboperator 0 the interior edges, then the boundaries.
   The operators for the flow alone refuse vectors with more components. *)
Definition apply_boundaries (cf : cconfig) (m : cmesh) (dt : R) (u : list R) (bs : list (cboundary * bop)) (f : list R) : option (list R * list bop) :=
  ofold (fun x bst => let* r := ApplyBoundaryFlux cf m (fst bst) dt u (snd bst) (fst x) in Some (fst r, snd x ++ [snd r])%list) bs (f, []).
Definition petsc_flux (w : balancing) (cf : cconfig) (p : cprocess) (dt : R) (u : list R) (sts : list bop) (f : list R) : option (list R * list bop) :=
  if Nat.eqb (num_comp cf) 3 then
    let* f :=
      match w with
      | Standard => ApplyInteriorFlux cf (cp_mesh p) u f
      | Hydrostatic file => let* zc := cell_beds file (cp_hmesh p) in ApplyInteriorFluxHR cf (cp_mesh p) zc u f
      end in
    apply_boundaries cf (cp_mesh p) dt u (combine (cp_bounds p) sts) f
  else None.

(* operator.c:656-672 ApplyPetscOperator on a vector zeroed by OperatorRHSFunction (rdysetup.c:1131): the
   right-hand side, the primitive variables and the arrays kept by the boundary operators *)
Definition includes_slope (w : balancing) : bool := match w with Standard => true | Hydrostatic _ => false end.
Definition ApplyPetscOperator (w : balancing) (cf : cconfig) (dt : R) (p : cprocess) (u : list R) (sts : list bop) : option (list R * list R * list bop) :=
  let size := (3 * length (owned_cells (cp_mesh p)))%nat in
  let* fs := petsc_flux w cf p dt u sts (repeat 0 size) in
  let div := fst fs in
  let* fp := ApplySource (includes_slope w) cf (cp_mesh p) (cp_ext p) (cp_mat p) div dt u (fst fs) (repeat 0 size) in
  Some (fst fp, snd fp, snd fs).

(* rdysetup.c:1119-1145 OperatorRHSFunction on all processes.  [S]: the arrays of the boundary operators. *)
Definition PetscRHSFunction (w : balancing) (cf : cconfig) (dt : R) (ps : list cprocess) (S : list (list bop)) (U : list (list R))
  : option (list (list R) * list (list bop)) :=
  let* us := omap (dm_global_to_local 3 U) ps in
  let* rs := omap (fun x => ApplyPetscOperator w cf dt (fst (fst x)) (snd (fst x)) (snd x)) (combine (combine ps us) S) in
  Some (map (fun r => fst (fst r)) rs, map snd rs).

(* TSEULER and TSRK4 with a right-hand side that keeps a state *)
Section Stateful.
  Context {S : Type} (F : S -> list (list R) -> option (list (list R) * S)).
  Definition state_euler (dt : R) (x : list (list R) * S) : option (list (list R) * S) :=
    let '(U, s) := x in
    let* r := F s U in let '(K, s) := r in Some (waxpy U dt K, s).
  Definition state_rk4 (dt : R) (x : list (list R) * S) : option (list (list R) * S) :=
    let '(U, s) := x in
    let* r := F s U in let '(K1, s) := r in
    let* r := F s (waxpy U (dt / 2) K1) in let '(K2, s) := r in
    let* r := F s (waxpy U (dt / 2) K2) in let '(K3, s) := r in
    let* r := F s (waxpy U dt K3) in let '(K4, s) := r in
    Some (waxpy (waxpy (waxpy (waxpy U (dt / 6) K1) (dt / 3) K2) (dt / 3) K3) (dt / 6) K4, s).
  Definition state_step (i : integrator) := match i with Euler => state_euler | RK4 => state_rk4 end.
End Stateful.

Definition petsc_run (i : integrator) (w : balancing) (cf : cconfig) (steps : list (R * list cprocess)) (x : list (list R) * list (list bop))
  : option (list (list R) * list (list bop)) :=
  ofold (fun x st => state_step (PetscRHSFunction w cf (fst st) (snd st)) i (fst st) x) steps x.
