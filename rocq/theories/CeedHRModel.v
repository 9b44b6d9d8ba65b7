(** Hydrostatic reconstruction on libCEED at the level of flat arrays: bed elevations, the interior flux
    operator, the boundary operators it is combined with, and the source operator. *)
From Coq Require Import String.
From Verif Require Import Base RoeModel EdgeModel HRModel EtaModel SourceModel TracerModel CeedLayoutModel.
Local Open Scope string_scope.
Local Open Scope list_scope.
Local Open Scope R_scope.
Local Notation length := List.length.

(* rdymeshimpl.h: the arrays of RDyCells read by these operators *)
Record hmesh := HMesh {
  hm_mesh : cmesh;
  hm_offsets : nat -> nat;        (* cells.vertex_offsets *)
  hm_vertices : nat -> nat;       (* cells.vertex_ids *)
  hm_count : nat -> nat;          (* cells.num_vertices *)
  hm_centroid_z : nat -> R;       (* cells.centroids[].X[2] *)
}.

(* operator_fluxes_hydro_recon_ceed.c:121-145: bed elevation of a cell, from the centroids if
   grid.cell_elevation.file is set ([file]) and otherwise the average over its vertices *)
Definition bed_elevation (file : bool) (hm : hmesh) (c : nat) : option R :=
  if file then Some (hm_centroid_z hm c)
  else
    let s := fold_left (fun zc v => zc + cm_z (hm_mesh hm) (hm_vertices hm v)) (seq (hm_offsets hm c) (hm_offsets hm (S c) - hm_offsets hm c)) 0 in
    rdiv s (INR (hm_count hm c)).

(* :111-148: geometry of the owned internal edge [e] *)
Definition hr_geom (file : bool) (hm : hmesh) (e : nat) : option (list R) :=
  let m := hm_mesh hm in
  let* gl := rdiv (- cm_len m e) (cm_area m (left_cell m e)) in
  let* gr := rdiv (cm_len m e) (cm_area m (right_cell m e)) in
  let* zl := bed_elevation file hm (left_cell m e) in
  let* zr := bed_elevation file hm (right_cell m e) in
  Some [cm_sn m e; cm_cn m e; gl; gr; zl; zr].

(* What the pointers out[0], out[1], ... receive, as the outputs of the operator that declares them.  An output
   of which only the first components are written, or nothing at all, has no defined contents; writing more
   components or more outputs than declared is outside the arrays ([None]). *)
Definition settle (decl : list (string * nat)) (written : list (list R)) : option (list (option (list R))) :=
  if (Nat.leb (length written) (length decl) && forallb (fun p => Nat.leb (length (fst p)) (snd (snd p))) (combine written decl))%bool then
    Some (map (fun jd => match nth_error written (fst jd) with
                         | Some v => if Nat.eqb (length v) (snd (snd jd)) then Some v else None
                         | None => None end)
              (combine (seq 0 (length decl)) decl))
  else None.

(* swe_fluxes_hydro_recon_ceed.h:64-151 SWEFlux_HydroRecon (with RIEMANN_FLUX_ROE), one point: out[0] the left
   cell, out[1] the right cell, out[2] the Courant numbers *)
Definition SWEFlux_HydroRecon (tiny_h h_anuga dt : R) (ins : list (list R)) : option (list (list R)) :=
  let* geom := nth_error ins 0 in
  let* q_L := nth_error ins 1 in
  let* q_R := nth_error ins 2 in
  let* qL := swe_state q_L in
  let* qR := swe_state q_R in
  let* zc_L := nth_error geom 4 in
  let* zc_R := nth_error geom 5 in
  let* sn := nth_error geom 0 in
  let* cn := nth_error geom 1 in
  let* wL := nth_error geom 2 in
  let* wR := nth_error geom 3 in
  let* p := ceed_hr_edge GRAVITY tiny_h h_anuga zc_L zc_R qL qR sn cn in
  let '(fL, fR, amax) := p in
  Some [map (fun x => x * wL) (comps3 fL); map (fun x => x * wR) (comps3 fR); [- amax * wL * dt; amax * wR * dt]].

(* tracer_fluxes_hydro_recon_ceed.h:43-150 TracerFlux_HydroRecon, one point: the same outputs *)
Definition TracerFlux_HydroRecon (nt : nat) (tiny_h h_anuga dt : R) (ins : list (list R)) : option (list (list R)) :=
  let* geom := nth_error ins 0 in
  let* q_L := nth_error ins 1 in
  let* q_R := nth_error ins 2 in
  let* qL := tracer_state nt q_L in
  let* qR := tracer_state nt q_R in
  let* zc_L := nth_error geom 4 in
  let* zc_R := nth_error geom 5 in
  let* sn := nth_error geom 0 in
  let* cn := nth_error geom 1 in
  let* wL := nth_error geom 2 in
  let* wR := nth_error geom 3 in
  let* p := ceed_tracer_hr_edge GRAVITY tiny_h h_anuga zc_L zc_R qL qR sn cn in
  let '(fL, fR, amax) := p in
  Some [map (fun x => x * wL) (comps nt fL); map (fun x => x * wR) (comps nt fR); [- amax * wL * dt; amax * wR * dt]].

(* operator_fluxes_hydro_recon_ceed.c:35-52 CreateHRInteriorFluxQFunction: the Riemann solver of the
   configuration is not consulted *)
Definition hr_interior_body (cf : cconfig) (dt : R) : list (list R) -> option (list (list R)) :=
  if Nat.eqb (num_tracers cf) 0 then SWEFlux_HydroRecon (cf_tiny_h cf) (cf_h_anuga cf) dt
  else TracerFlux_HydroRecon (num_tracers cf) (cf_tiny_h cf) (cf_h_anuga cf) dt.

(* :93-96 *)
Definition hr_outputs (cf : cconfig) : list (string * nat) :=
  [("cell_left", num_comp cf); ("cell_right", num_comp cf); ("flux", num_comp cf); ("courant_number", 2%nat)].

(* :71-214 CreateCeedInteriorFluxHydroReconSuboperator *)
Definition CreateCeedInteriorFluxHydroReconSuboperator (cf : cconfig) (file : bool) (hm : hmesh) (dt : R) : option ceed_operator :=
  let m := hm_mesh hm in
  let nc := num_comp cf in
  let es := owned_internal m in
  let n := length es in
  let* g := omap (hr_geom file hm) es in
  Some (CeedOp
    (QFunction
       [("geom", 6%nat); ("q_left", nc); ("q_right", nc)]
       (hr_outputs cf)
       (fun ins => let* w := hr_interior_body cf dt ins in settle (hr_outputs cf) w))
    [OpField "geom" (strided n 6) (Some (concat g));
     OpField "q_left" (Restriction (map (fun e => left_cell m e * nc)%nat es) nc) None;
     OpField "q_right" (Restriction (map (fun e => right_cell m e * nc)%nat es) nc) None;
     OpField "cell_left" (Restriction (map (fun e => cm_l2o m (left_cell m e) * nc)%nat es) nc) None;
     OpField "cell_right" (Restriction (map (fun e => cm_l2o m (right_cell m e) * nc)%nat es) nc) None;
     OpField "flux" (strided n nc) (Some (repeat 0 (n * nc)));
     OpField "courant_number" (strided n 2) (Some (repeat 0 (n * 2)))]).

(* :224-257 CreateCeedFluxHROperator: the boundary operators are the standard ones, with the elevations of the
   vertices in place of those of the water surface *)
Definition CreateCeedFluxHROperator (cf : cconfig) (file : bool) (hm : hmesh) (dt : R) (bs : list cboundary) : option (list ceed_operator) :=
  let* i := CreateCeedInteriorFluxHydroReconSuboperator cf file hm dt in
  let* l := omap (CreateCeedBoundaryFluxSuboperator cf (hm_mesh hm) (initial_eta (hm_mesh hm)) dt) bs in
  Some (i :: l).

(* operator.c:189-191, 567-588: the local right-hand side after the flux operators *)
Definition hr_flux_rhs (cf : cconfig) (file : bool) (hm : hmesh) (dt : R) (bs : list cboundary) (u : list R) : option (list R) :=
  let* ops := CreateCeedFluxHROperator cf file hm dt bs in
  apply_add_all ops u (repeat 0 (num_comp cf * cm_cells (hm_mesh hm))).

(** ** Sources *)

(* swe_sources_hydro_recon_ceed.h:31-89 SWESourcesHydroRecon, one point; in[0] is not read *)
Definition SWESourcesHydroRecon (fr : friction) (tiny_h h_anuga dt : R) (ins : list (list R)) : option (list (option (list R))) :=
  let* ext_src := nth_error ins 1 in
  let* mat_props := nth_error ins 2 in
  let* riemannf := nth_error ins 3 in
  let* q := nth_error ins 4 in
  let* state := swe_state q in
  let* F := swe_state riemannf in
  let* mannings_n := nth_error mat_props 0 in
  let* src := swe_state ext_src in
  let* s := ceed_rhs fr false GRAVITY dt tiny_h h_anuga mannings_n 0 0 state F src in
  let h := c0 state in
  let denom := h * h + h_anuga * h_anuga in
  let* u := SafeDiv (c1 state * h) denom h tiny_h in
  let* v := SafeDiv (c2 state * h) denom h tiny_h in
  Some [Some (comps3 s); Some [h; u; v]; Some (comps3 src)].

(* tracer_sources_hydro_recon_ceed.h:30-99 TracerSourcesHydroRecon, one point; in[0] is not read *)
Definition hr_tracer_source_terms (semi : bool) (dt tiny_h n : R) (q F src : tvec) : option tvec :=
  if semi then ceed_tracer_rhs false GRAVITY dt tiny_h n 0 0 q F src
  else Some (TV (V3 (c0 (tflow F) + c0 (tflow src)) (c1 (tflow F) - 0 + c1 (tflow src)) (c2 (tflow F) - 0 + c2 (tflow src)))
                (fun j => ttr F j + (0 - 0) + ttr src j)).
Definition TracerSourcesHydroRecon (semi : bool) (nt : nat) (tiny_h h_anuga dt : R) (ins : list (list R)) : option (list (option (list R))) :=
  let* ext_src := nth_error ins 1 in
  let* mat_props := nth_error ins 2 in
  let* riemannf := nth_error ins 3 in
  let* q := nth_error ins 4 in
  let* state := tracer_state nt q in
  let* F := tracer_state nt riemannf in
  let* mannings_n := nth_error mat_props 0 in
  let* src := tracer_state nt ext_src in
  let* s := hr_tracer_source_terms semi dt tiny_h mannings_n state F src in
  let h := depth state in
  let denom := h * h + h_anuga * h_anuga in
  let* u := SafeDiv (c1 (tflow state) * h) denom h tiny_h in
  let* v := SafeDiv (c2 (tflow state) * h) denom h tiny_h in
  let* ci := omap (fun j => if tiny_h <? h then rdiv (ttr state j) h else Some 0) (seq 0 nt) in
  Some [Some (comps nt s); Some ([h; u; v] ++ ci); Some (comps nt src)].

(* operator_sources_hydro_recon_ceed.c:23-67 CreateHRSourceQFunction; [None]: refused *)
Definition hr_source_body (cf : cconfig) (dt : R) : option (list (list R) -> option (list (option (list R)))) :=
  let nt := num_tracers cf in
  if Nat.eqb nt 0 then
    Some (SWESourcesHydroRecon (match cf_source cf with SOURCE_SEMI_IMPLICIT => SemiImplicit | SOURCE_IMPLICIT_XQ2018 => XQ2018 (cf_xq_threshold cf) | SOURCE_ARK_IMEX => NoFriction end)
            (cf_tiny_h cf) (cf_h_anuga cf) dt)
  else
    match cf_source cf with
    | SOURCE_SEMI_IMPLICIT => Some (TracerSourcesHydroRecon true nt (cf_tiny_h cf) (cf_h_anuga cf) dt)
    | SOURCE_IMPLICIT_XQ2018 => None
    | SOURCE_ARK_IMEX => Some (TracerSourcesHydroRecon false nt (cf_tiny_h cf) (cf_h_anuga cf) dt)
    end.

(* operator_sources_hydro_recon_ceed.c:98-200 CreateCeedSourceHydroReconSuboperator, with the fields riemannf,
   primitive_variables and sources of operator.c:224-335 *)
Definition CreateCeedSourceHydroReconSuboperator (cf : cconfig) (m : cmesh) (ext mat div : list R) (dt : R) : option ceed_operator :=
  let* body := hr_source_body cf dt in
  let nc := num_comp cf in
  let cs := owned_cells m in
  let n := length cs in
  Some (CeedOp
    (QFunction
       [("geom", 2%nat); ("ext_src", nc); ("mat_props", NUM_MATERIAL_PROPERTIES); ("riemannf", nc); ("q", nc)]
       [("cell", nc); ("primitive_variables", nc); ("sources", nc)]
       body)
    [OpField "geom" (strided n 2) (Some (concat (map (fun c => [cm_dzdx m c; cm_dzdy m c]) cs)));
     OpField "ext_src" (strided n nc) (Some ext);
     OpField "mat_props" (strided n NUM_MATERIAL_PROPERTIES) (Some mat);
     OpField "q" (Restriction (map (fun c => c * nc)%nat cs) nc) None;
     OpField "cell" (Restriction (map (fun c => cm_l2o m c * nc)%nat cs) nc) None;
     OpField "riemannf" (strided n nc) (Some div);
     OpField "primitive_variables" (strided n nc) (Some (repeat 0 (n * nc)));
     OpField "sources" (strided n nc) (Some (repeat 0 (n * nc)))]).

(* operator.c:192, 608-637 *)
Definition hr_source_rhs (cf : cconfig) (m : cmesh) (ext mat div : list R) (dt : R) (u : list R) : option (list R) :=
  let* op := CreateCeedSourceHydroReconSuboperator cf m ext mat div dt in
  apply [op] u (num_comp cf * length (owned_cells m)).

(** ** Courant numbers *)

(* operator.c:775-795 CeedFindMaxCourantNumberInternalEdges: largest of the numbers in the vector of the field
   "courant_number", two per owned internal edge; [None] if one of them was never written *)
Definition CeedFindMaxCourantNumberInternalEdges (op : ceed_operator) (u : list R) (start : R) : option R :=
  let* rows := omap (fun i => let* o := passive_output op u "courant_number" i in o) (seq 0 (elems op)) in
  ofold (fun mx row => let* l := nth_error row 0 in let* r := nth_error row 1 in Some (Rmax mx (Rmax l r))) rows start.
