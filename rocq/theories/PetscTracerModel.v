(** Tracers on the PETSc back end at the level of flat arrays: the operators on one process, one evaluation of the
    right-hand side on all processes, and runs.  Follows PetscRunModel.v. *)
From Verif Require Import Base RoeModel EdgeModel HRModel SourceModel TracerModel AssemblyModel CeedLayoutModel CeedHRModel CeedRunModel PetscRunModel.
Local Open Scope R_scope.
Local Notation length := List.length.

(** ** Riemann states on a list of edges *)

(* tracer_types_petsc.h TracerRiemannStateData, the entries of one edge: h, hu, hv, u, v, and num_tracers_comp
   entries of hci and of ci ([None]: not a finite number).  The arrays hci and ci, of num_tracers_comp entries for
   each edge, are modelled as one row for each edge. *)
Record tstate := TState { st_flow : rstate; st_hci : list R; st_ci : list (option R) }.
(* PetscCalloc1 *)
Definition tstate0 (nt : nat) : tstate := TState rstate0 (repeat 0 nt) (repeat (Some 0) nt).

(* tracer_petsc.c:105-128 ComputeRiemannVelocitiesAndConcentration *)
Definition tracer_velocity (tiny_h : R) (s : tstate) : tstate :=
  let f := st_flow s in
  match rs_h f with
  | None => TState (RState None (rs_hu f) (rs_hv f) None None) (st_hci s) (map (fun _ => None) (st_hci s))
  | Some h =>
    if h <? tiny_h then TState (RState (Some h) (rs_hu f) (rs_hv f) (Some 0) (Some 0)) (st_hci s) (map (fun _ => Some 0) (st_hci s))
    else TState (RState (Some h) (rs_hu f) (rs_hv f) (rdiv (rs_hu f) h) (rdiv (rs_hv f) h)) (st_hci s) (map (fun hc => rdiv hc h) (st_hci s))
  end.

(** ** Riemann solvers *)

(* tracer_roe_flux_petsc.h:58-71: the matrix R, zero where nothing is stored *)
Definition tracer_R (s : spectrum) (cihat : list R) (i j : nat) : R :=
  match i with
  | 0%nat => nth j (comps3 (row0 s)) 0
  | 1%nat => nth j (comps3 (row1 s)) 0
  | 2%nat => nth j (comps3 (row2 s)) 0
  | S (S (S t)) => if (Nat.eqb j 0 || Nat.eqb j 2)%bool then nth t cihat 0 else if Nat.eqb j (t + 3) then 1 else 0
  end.
(* :73-87: the diagonal of A, and dW *)
Definition tracer_A (s : spectrum) (j : nat) : R := match j with 0%nat => c0 (lam s) | 1%nat => c1 (lam s) | 2%nat => c2 (lam s) | _ => c1 (lam s) end.
Definition tracer_dW (s : spectrum) (dh : R) (dch cihat : list R) (j : nat) : R :=
  match j with 0%nat => c0 (dW s) | 1%nat => c1 (dW s) | 2%nat => c2 (dW s) | S (S (S t)) => nth t dch 0 - nth t cihat 0 * dh end.

(* :17-119 ComputeTracerRoeFlux, one edge: the soln_ncomp entries of fij.  [cl], [cr]: tracers_ncomp entries of ci *)
Definition roe_fij (nt : nat) (L Rt : prim) (cl cr : list R) (sn cn : R) : option (list R) :=
  let* s := petsc_eigenspectrum L Rt sn cn in
  let* duml := rsqrt (ph L) in
  let* dumr := rsqrt (ph Rt) in
  let dh := ph Rt - ph L in
  let uperpl := pu L * cn + pv L * sn in
  let uperpr := pu Rt * cn + pv Rt * sn in
  let* cihat := omap (fun j => rdiv (duml * nth j cl 0 + dumr * nth j cr 0) (duml + dumr)) (seq 0 nt) in
  let dch := map (fun j => nth j cr 0 * ph Rt - nth j cl 0 * ph L) (seq 0 nt) in
  let FL := (comps3 (side_flux GRAVITY L sn cn) ++ map (fun j => ph L * uperpl * nth j cl 0) (seq 0 nt))%list in
  let FR := (comps3 (side_flux GRAVITY Rt sn cn) ++ map (fun j => ph Rt * uperpr * nth j cr 0) (seq 0 nt))%list in
  Some (map (fun dof1 =>
    fold_left (fun f dof2 => f - 1/2 * tracer_R s cihat dof1 dof2 * tracer_A s dof2 * tracer_dW s dh dch cihat dof2) (seq 0 (3 + nt))
              (1/2 * (nth dof1 FL 0 + nth dof1 FR 0))) (seq 0 (3 + nt))).

(* :129-206 ComputeUpwindTracerRoeFlux, one edge *)
Definition upwind_fij (nt : nat) (L Rt : prim) (cl cr : list R) (sn cn : R) : option (list R) :=
  let* s := petsc_eigenspectrum L Rt sn cn in
  let FL := side_flux GRAVITY L sn cn in
  let FR := side_flux GRAVITY Rt sn cn in
  let roe i := fold_left (fun f j => f - 1/2 * tracer_R s [] i j * tracer_A s j * tracer_dW s 0 [] [] j) (seq 0 3) (1/2 * (nth i (comps3 FL) 0 + nth i (comps3 FR) 0)) in
  let Fh := roe 0%nat in
  Some (map roe (seq 0 3) ++ map (fun j => if 0 <=? Fh then Fh * nth j cl 0 else Fh * nth j cr 0) (seq 0 nt))%list.

Definition fij (k : triemann) := match k with TRoe => roe_fij | TUpwind => upwind_fij end.

(* The fluxes (soln_ncomp for each edge) of all edges.  A flux that is not finite is only stored; if one of the
   numbers a flux is computed from is not finite, all components are taken not to be. *)
Definition tflux_between (k : triemann) (nt : nat) (l r : tstate) (sn cn : R) : option (list R) :=
  let* L := rs_prim (st_flow l) in
  let* Rt := rs_prim (st_flow r) in
  let* cl := omap (fun c : option R => c) (st_ci l) in
  let* cr := omap (fun c : option R => c) (st_ci r) in
  fij k nt L Rt cl cr sn cn.
Definition tflux_at (k : triemann) (nt : nat) (dl dr : list tstate) (sn cn : list R) (i : nat) : option (option (list R)) :=
  let* l := nth_error dl i in
  let* r := nth_error dr i in
  let* s := nth_error sn i in
  let* c := nth_error cn i in
  Some (tflux_between k nt l r s c).
Definition flux_row_of (n : nat) (o : option (list R)) : list (option R) := match o with Some row => map Some row | None => repeat None n end.
Definition ComputeTracerFlux (k : triemann) (nt : nat) (dl dr : list tstate) (sn cn : list R) : option (list (option R)) :=
  let* rs := omap (tflux_at k nt dl dr sn cn) (seq 0 (length dl)) in
  Some (concat (map (flux_row_of (3 + nt)) rs)).

(* the state of the cell [c], from u_ptr[n_dof * c + ...] *)
Definition tload (n nt : nat) (u : list R) (c : nat) : option tstate :=
  let* h := nth_error u (n * c + 0) in
  let* hu := nth_error u (n * c + 1) in
  let* hv := nth_error u (n * c + 2) in
  let* hci := omap (fun s => nth_error u (n * c + 3 + s)) (seq 0 nt) in
  Some (TState (RState (Some h) hu hv (Some 0) (Some 0)) hci (repeat (Some 0) nt)).

(** ** Interior edges *)

(* tracer_petsc.c:214-258, one edge; the Courant number is left out *)
Definition taccumulate_edge (n : nat) (tiny_h : R) (m : cmesh) (u : list R) (fluxes : list (option R)) (f : list R) (ei : nat * nat) : option (list R) :=
  let '(e, edge_id) := ei in
  let l := left_cell m edge_id in
  let r := right_cell m edge_id in
  let* hl := nth_error u (n * l + 0) in
  let* hr := nth_error u (n * r + 0) in
  if ((hr <? tiny_h) && (hl <? tiny_h))%bool then Some f
  else
    ofold (fun f i =>
      let* f := bump (cm_owned m l) f (n * cm_l2o m l + i) (scaled fluxes (n * e + i) (rdiv (- cm_len m edge_id) (cm_area m l))) in
      bump (cm_owned m r) f (n * cm_l2o m r + i) (scaled fluxes (n * e + i) (rdiv (cm_len m edge_id) (cm_area m r)))) (seq 0 n) f.

(* tracer_petsc.c:150-262 ApplyTracerInteriorFlux; n: block size of u_local *)
Definition ApplyTracerInteriorFlux (cf : cconfig) (m : cmesh) (u f : list R) : option (list R) :=
  let n := num_comp cf in
  let nt := cf_classes cf in
  if Nat.eqb n (3 + nt) then
    let sn := map (cm_sn m) (cm_internal m) in
    let cn := map (cm_cn m) (cm_internal m) in
    let* dl := omap (fun edge_id => tload n nt u (left_cell m edge_id)) (cm_internal m) in
    let* dr := omap (fun edge_id => tload n nt u (right_cell m edge_id)) (cm_internal m) in
    let* fl := ComputeTracerFlux (tkind (cf_riemann cf)) nt (map (tracer_velocity (cf_tiny_h cf)) dl) (map (tracer_velocity (cf_tiny_h cf)) dr) sn cn in
    ofold (taccumulate_edge n (cf_tiny_h cf) m u fl) (combine (seq 0 (length (cm_internal m))) (cm_internal m)) f
  else None.

(* tracer_petsc.c:844-892: the reconstructed states of one edge.  hu and hv are h_rec times the velocity; they are
   not read. *)
Definition thr_states (n nt : nat) (tiny_h h_anuga : R) (m : cmesh) (zc u : list R) (edge_id : nat) : option (tstate * tstate) :=
  let l := left_cell m edge_id in
  let r := right_cell m edge_id in
  let* h_L := nth_error u (n * l + 0) in
  let* hu_L := nth_error u (n * l + 1) in
  let* hv_L := nth_error u (n * l + 2) in
  let* h_R := nth_error u (n * r + 0) in
  let* hu_R := nth_error u (n * r + 1) in
  let* hv_R := nth_error u (n * r + 2) in
  let* hc_L := omap (fun s => nth_error u (n * l + 3 + s)) (seq 0 nt) in
  let* hc_R := omap (fun s => nth_error u (n * r + 3 + s)) (seq 0 nt) in
  let* zc_L := nth_error zc l in
  let* zc_R := nth_error zc r in
  let z_max := Rmax zc_L zc_R in
  let hL_rec := Rmax 0 (h_L + zc_L - z_max) in
  let hR_rec := Rmax 0 (h_R + zc_R - z_max) in
  let denom_L := h_L * h_L + h_anuga * h_anuga in
  let denom_R := h_R * h_R + h_anuga * h_anuga in
  let vel h hu denom := if tiny_h <? h then rdiv (hu * h) denom else Some 0 in
  let conc h hc := if tiny_h <? h then rdiv hc h else Some 0 in
  Some (TState (RState (Some hL_rec) 0 0 (vel h_L hu_L denom_L) (vel h_L hv_L denom_L)) [] (map (conc h_L) hc_L),
        TState (RState (Some hR_rec) 0 0 (vel h_R hu_R denom_R) (vel h_R hv_R denom_R)) [] (map (conc h_R) hc_R)).

(* tracer_petsc.c:906-976, one edge *)
Definition taccumulate_edge_hr (n : nat) (tiny_h : R) (m : cmesh) (zc u sn cn : list R) (fluxes : list (option R)) (f : list R) (ei : nat * nat) : option (list R) :=
  let '(e, edge_id) := ei in
  let l := left_cell m edge_id in
  let r := right_cell m edge_id in
  let* h_L := nth_error u (n * l + 0) in
  let* h_R := nth_error u (n * r + 0) in
  if ((h_R <? tiny_h) && (h_L <? tiny_h))%bool then Some f
  else
    let* zc_L := nth_error zc l in
    let* zc_R := nth_error zc r in
    let z_max := Rmax zc_L zc_R in
    let hL_rec := Rmax 0 (h_L + zc_L - z_max) in
    let hR_rec := Rmax 0 (h_R + zc_R - z_max) in
    let scale_l := rdiv (- cm_len m edge_id) (cm_area m l) in
    let scale_r := rdiv (cm_len m edge_id) (cm_area m r) in
    let lo := cm_l2o m l in
    let ro := cm_l2o m r in
    let* f :=
      if ((tiny_h <? hL_rec) || (tiny_h <? hR_rec))%bool then
        ofold (fun f i =>
          let* f := bump (cm_owned m l) f (n * lo + i) (scaled fluxes (n * e + i) scale_l) in
          bump (cm_owned m r) f (n * ro + i) (scaled fluxes (n * e + i) scale_r)) (seq 0 n) f
      else Some f in
    let corr_L := 1/2 * GRAVITY * (h_L * h_L - hL_rec * hL_rec) in
    let corr_R := 1/2 * GRAVITY * (h_R * h_R - hR_rec * hR_rec) in
    let* c := nth_error cn e in
    let* s := nth_error sn e in
    let* f := bump (cm_owned m l) f (n * lo + 1) (let* w := scale_l in Some (corr_L * c * w)) in
    let* f := bump (cm_owned m l) f (n * lo + 2) (let* w := scale_l in Some (corr_L * s * w)) in
    let* f := bump (cm_owned m r) f (n * ro + 1) (let* w := scale_r in Some (corr_R * c * w)) in
    bump (cm_owned m r) f (n * ro + 2) (let* w := scale_r in Some (corr_R * s * w)).

(* tracer_petsc.c:807-990 ApplyTracerInteriorFluxHR *)
Definition ApplyTracerInteriorFluxHR (cf : cconfig) (m : cmesh) (zc u f : list R) : option (list R) :=
  let n := num_comp cf in
  let nt := cf_classes cf in
  if Nat.eqb n (3 + nt) then
    let sn := map (cm_sn m) (cm_internal m) in
    let cn := map (cm_cn m) (cm_internal m) in
    let* ds := omap (thr_states n nt (cf_tiny_h cf) (cf_h_anuga cf) m zc u) (cm_internal m) in
    let* fl := ComputeTracerFlux (tkind (cf_riemann cf)) nt (map fst ds) (map snd ds) sn cn in
    ofold (taccumulate_edge_hr n (cf_tiny_h cf) m zc u sn cn fl) (combine (seq 0 (length (cm_internal m))) (cm_internal m)) f
  else None.

(** ** Boundary edges *)

(* what one boundary operator keeps: the right states and the vector boundary_fluxes.  The vector
   boundary_fluxes_accum is not touched. *)
Record tbop := TBOp { tb_right : list tstate; tb_fluxes : list (option R) }.

(* tracer_petsc.c:362-393 ApplyTracerReflectingBC, one edge *)
Definition treflect_state (m : cmesh) (x : nat * (tstate * tstate * (R * R))) : tstate :=
  let '(edge_id, (l, r, (sn, cn))) := x in
  if cm_owned m (left_cell m edge_id) then
    let dum1 := sn * sn - cn * cn in
    let dum2 := 2 * sn * cn in
    let fl := st_flow l in
    TState (RState (rs_h fl) (rs_hu (st_flow r)) (rs_hv (st_flow r))
             (let* u := rs_u fl in let* v := rs_v fl in Some (u * dum1 - v * dum2))
             (let* u := rs_u fl in let* v := rs_v fl in Some (- u * dum2 - v * dum1)))
           (st_hci r) (st_ci l)
  else r.

(* tracer_petsc.c:491-514, one edge, [e] its position *)
Definition taccumulate_bedge (n : nat) (tiny_h : R) (m : cmesh) (dl dr : list tstate) (fluxes : list (option R)) (f : list R) (ei : nat * nat) : option (list R) :=
  let '(e, edge_id) := ei in
  let c := left_cell m edge_id in
  if cm_owned m c then
    let* sl := nth_error dl e in
    let* sr := nth_error dr e in
    let* hl := rs_h (st_flow sl) in
    let* hr := rs_h (st_flow sr) in
    if ((hl <? tiny_h) && (hr <? tiny_h))%bool then Some f
    else ofold (fun f i => bump true f (n * cm_l2o m c + i) (scaled fluxes (n * e + i) (rdiv (- cm_len m edge_id) (cm_area m c)))) (seq 0 n) f
  else Some f.

(* tracer_petsc.c:406-521 ApplyTracerBoundaryFlux *)
Definition ApplyTracerBoundaryFlux (cf : cconfig) (m : cmesh) (b : cboundary) (u : list R) (st : tbop) (f : list R) : option (list R * tbop) :=
  let n := num_comp cf in
  let nt := cf_classes cf in
  if Nat.eqb n (3 + nt) then
    let sn := map (cm_sn m) (cb_edges b) in
    let cn := map (cm_cn m) (cb_edges b) in
    let* dl := omap (fun edge_id => tload n nt u (left_cell m edge_id)) (cb_edges b) in
    let dl := map (tracer_velocity (cf_tiny_h cf)) dl in
    let* dr :=
      match cb_type b with
      | DIRICHLET =>
        let* dr := omap (tload n nt (cb_values b)) (seq 0 (length (cb_edges b))) in
        Some (map (tracer_velocity (cf_tiny_h cf)) dr)
      | REFLECTING => Some (map (treflect_state m) (combine (cb_edges b) (combine (combine dl (tb_right st)) (combine sn cn))))
      | CRITICAL_OUTFLOW => None        (* "CONDITION_CRITICAL_OUTFLOW not supported for tracers" *)
      end in
    let* fl := ComputeTracerFlux (tkind (cf_riemann cf)) nt dl dr sn cn in
    let* f := ofold (taccumulate_bedge n (cf_tiny_h cf) m dl dr fl) (combine (seq 0 (length (cb_edges b))) (cb_edges b)) f in
    Some (f, TBOp dr fl)
  else None.

(** ** Sources *)

(* tracer_petsc.c:664-724 ApplyTracerSourceSemiImplicit, one cell: the right-hand side [f] and the primitive
   variables [pv]; with [bed] = false, :1104-1146 ApplyTracerSourceHRSemiImplicit, which does not write [pv].
   The roughness is read at the LOCAL id of the cell from a vector with an entry for each owned cell. *)
Definition tsource_cell (bed : bool) (cf : cconfig) (m : cmesh) (ext mat div : list R) (dt : R) (u : list R) (fp : list R * list R) (c : nat)
  : option (list R * list R) :=
  let '(f, pv) := fp in
  let n := num_comp cf in
  let nt := cf_classes cf in
  if cm_owned m c then
    let o := cm_l2o m c in
    let* h := nth_error u (n * c + 0) in
    let* hu := nth_error u (n * c + 1) in
    let* hv := nth_error u (n * c + 2) in
    let bedx := if bed then cm_dzdx m c * GRAVITY * h else 0 in
    let bedy := if bed then cm_dzdy m c * GRAVITY * h else 0 in
    let* Fsum_x := nth_error div (n * o + 1) in
    let* Fsum_y := nth_error div (n * o + 2) in
    let* r :=
      if cf_tiny_h cf <=? h then
        let* u_ := rdiv hu h in
        let* v_ := rdiv hv h in
        let* N_mannings := nth_error mat c in
        let* hp := rpowneg h (- (1/3)) in
        let Cd := GRAVITY * (N_mannings * N_mannings) * hp in
        let* velocity := rsqrt (u_ * u_ + v_ * v_) in
        let* tb := rdiv (Cd * velocity) h in
        let* factor := rdiv tb (1 + dt * tb) in
        let tbx := (hu + dt * Fsum_x - dt * bedx) * factor in
        let tby := (hv + dt * Fsum_y - dt * bedy) * factor in
        let tau_b := tau_bed Cd u_ v_ in
        let* f := ofold (fun f s =>
          let* hc := nth_error u (n * c + 3 + s) in
          let* ci := rdiv hc h in
          let* src := nth_error ext (n * o + 3 + s) in
          bump true f (n * o + 3 + s) (Some (erosion tau_b - deposition tau_b ci + src))) (seq 0 nt) f in
        Some (f, tbx, tby)
      else Some (f, 0, 0) in
    let '(f, tbx, tby) := r in
    let* s0 := nth_error ext (n * o + 0) in
    let* s1 := nth_error ext (n * o + 1) in
    let* s2 := nth_error ext (n * o + 2) in
    let* f := bump true f (n * o + 0) (Some s0) in
    let* f := bump true f (n * o + 1) (Some (- bedx - tbx + s1)) in
    let* f := bump true f (n * o + 2) (Some (- bedy - tby + s2)) in
    if bed then
      let denom := h * h + cf_h_anuga cf * cf_h_anuga cf in
      let* pv := put pv (n * o + 0) (Some h) in
      let* pv := put pv (n * o + 1) (if cf_tiny_h cf <=? h then rdiv (hu * h) denom else Some 0) in
      let* pv := put pv (n * o + 2) (if cf_tiny_h cf <=? h then rdiv (hv * h) denom else Some 0) in
      let* pv := ofold (fun pv s =>
        let* hc := nth_error u (n * c + 3 + s) in
        put pv (n * o + 3 + s) (if cf_tiny_h cf <=? h then rdiv hc h else Some 0)) (seq 0 nt) pv in
      Some (f, pv)
    else Some (f, pv)
  else Some (f, pv).

(* operator_sources_petsc.c, tracer_petsc.c:766-785: only the semi-implicit method *)
Definition ApplyTracerSource (bed : bool) (cf : cconfig) (m : cmesh) (ext mat div : list R) (dt : R) (u f pv : list R) : option (list R * list R) :=
  match cf_source cf with
  | SOURCE_SEMI_IMPLICIT => ofold (tsource_cell bed cf m ext mat div dt u) (seq 0 (cm_cells m)) (f, pv)
  | _ => None
  end.

(** ** The whole operator *)
Definition tapply_boundaries (cf : cconfig) (m : cmesh) (u : list R) (bs : list (cboundary * tbop)) (f : list R) : option (list R * list tbop) :=
  ofold (fun x bst => let* r := ApplyTracerBoundaryFlux cf m (fst bst) u (snd bst) (fst x) in Some (fst r, snd x ++ [snd r])%list) bs (f, []).
(* With reconstruction the bed elevation of a cell is always the average over its vertices (tracer_petsc.c:1036-1046):
   [file] is ignored. *)
Definition ptracer_flux (w : balancing) (cf : cconfig) (p : cprocess) (u : list R) (sts : list tbop) (f : list R) : option (list R * list tbop) :=
  let* f :=
    match w with
    | Standard => ApplyTracerInteriorFlux cf (cp_mesh p) u f
    | Hydrostatic _ => let* zc := cell_beds false (cp_hmesh p) in ApplyTracerInteriorFluxHR cf (cp_mesh p) zc u f
    end in
  tapply_boundaries cf (cp_mesh p) u (combine (cp_bounds p) sts) f.

(* operator.c:656-672 ApplyPetscOperator, on a vector zeroed by OperatorRHSFunction; [pv]: the vector
   primitive_variables as it was *)
Definition ApplyPetscTracerOperator (w : balancing) (cf : cconfig) (dt : R) (p : cprocess) (u : list R) (pv : list R) (sts : list tbop)
  : option (list R * list R * list tbop) :=
  let* fs := ptracer_flux w cf p u sts (repeat 0 (num_comp cf * length (owned_cells (cp_mesh p)))) in
  let div := fst fs in
  let* fp := ApplyTracerSource (includes_slope w) cf (cp_mesh p) (cp_ext p) (cp_mat p) div dt u (fst fs) pv in
  Some (fst fp, snd fp, snd fs).

(* rdysetup.c:1119-1145 OperatorRHSFunction on all processes.  [S]: primitive variables and the arrays of the
   boundary operators. *)
Definition PetscTracerRHSFunction (w : balancing) (cf : cconfig) (dt : R) (ps : list cprocess) (S : list (list R * list tbop)) (U : list (list R))
  : option (list (list R) * list (list R * list tbop)) :=
  let* us := omap (dm_global_to_local (num_comp cf) U) ps in
  let* rs := omap (fun x => ApplyPetscTracerOperator w cf dt (fst (fst x)) (snd (fst x)) (fst (snd x)) (snd (snd x))) (combine (combine ps us) S) in
  Some (map (fun r => fst (fst r)) rs, map (fun r => (snd (fst r), snd r)) rs).

Definition petsc_tracer_run (i : integrator) (w : balancing) (cf : cconfig) (steps : list (R * list cprocess)) (x : list (list R) * list (list R * list tbop))
  : option (list (list R) * list (list R * list tbop)) :=
  ofold (fun x st => state_step (PetscTracerRHSFunction w cf (fst st) (snd st)) i (fst st) x) steps x.
