(** Second-order reconstruction at the level of flat arrays: gradient coefficients, gradients, their exchange
    between processes, face values, and the libCEED operator that reads them. *)
From Coq Require Import String.
From Verif Require Import Base RoeModel EdgeModel EtaModel SourceModel TracerModel CeedLayoutModel MusclModel.
Local Open Scope string_scope.
Local Open Scope list_scope.
Local Open Scope R_scope.
Local Notation length := List.length.

(* rdymeshimpl.h: cells.centroids and vertices.points, first two coordinates *)
Record rmesh := RMesh { rm_mesh : cmesh; rm_centroid : nat -> pt; rm_point : nat -> pt }.

(** ** Coefficients: operator_fluxes_ceed.c:884-981 PrecomputeLSGradCoeffs *)

(* :907-910 and :963-966 for the edge with id [e]: (dx, dy) and w *)
Definition edge_vector (rm : rmesh) (e : nat) : pt :=
  Pt (px (rm_centroid rm (right_cell (rm_mesh rm) e)) - px (rm_centroid rm (left_cell (rm_mesh rm) e)))
     (py (rm_centroid rm (right_cell (rm_mesh rm) e)) - py (rm_centroid rm (left_cell (rm_mesh rm) e))).
Definition edge_weight (rm : rmesh) (e : nat) : R :=
  let dx := px (edge_vector rm e) in let dy := py (edge_vector rm e) in
  let d := sqrt (dx * dx + dy * dy) in
  if 0 <? d then 1 / d else 0.

(* :896-920 pass 1: M has three entries for each cell *)
Definition add_matrix (rm : rmesh) (M : list R) (e : nat) : option (list R) :=
  let dx := px (edge_vector rm e) in let dy := py (edge_vector rm e) in let w := edge_weight rm e in
  let t := [w * dx * dx; w * dx * dy; w * dy * dy] in
  let* M := add_into M (left_cell (rm_mesh rm) e * 3) t in
  add_into M (right_cell (rm_mesh rm) e * 3) t.
Definition matrices (rm : rmesh) : option (list R) :=
  ofold (add_matrix rm) (cm_internal (rm_mesh rm)) (repeat 0 (cm_cells (rm_mesh rm) * 3)).

(* :923-946: the four entries of inv_m for each cell, written in the order of the cells *)
Definition inverse_entries (M : list R) (c : nat) : option (list R) :=
  let* m00 := nth_error M (c * 3 + 0) in
  let* m01 := nth_error M (c * 3 + 1) in
  let* m11 := nth_error M (c * 3 + 2) in
  let det := m00 * m11 - m01 * m01 in
  if Rabs det <? degenerate_det then Some [0; 0; 0; 0]
  else let* inv_det := rdiv 1 det in Some [m11 * inv_det; - m01 * inv_det; - m01 * inv_det; m00 * inv_det].
Definition inverses (rm : rmesh) (M : list R) : option (list R) :=
  let* rows := omap (inverse_entries M) (seq 0 (cm_cells (rm_mesh rm))) in Some (concat rows).

(* :956-977 pass 2: the four coefficients of each internal edge, in the order of the edges *)
Definition coeff_entries (rm : rmesh) (inv : list R) (e : nat) : option (list R) :=
  let wdx := edge_weight rm e * px (edge_vector rm e) in
  let wdy := edge_weight rm e * py (edge_vector rm e) in
  let* il := fetch inv (left_cell (rm_mesh rm) e * 4) 4 in
  let* ir := fetch inv (right_cell (rm_mesh rm) e * 4) 4 in
  Some [nth 0 il 0 * wdx + nth 1 il 0 * wdy; nth 2 il 0 * wdx + nth 3 il 0 * wdy;
        nth 0 ir 0 * wdx + nth 1 ir 0 * wdy; nth 2 ir 0 * wdx + nth 3 ir 0 * wdy].
Definition PrecomputeLSGradCoeffs (rm : rmesh) : option (list R) :=
  let* M := matrices rm in
  let* inv := inverses rm M in
  let* rows := omap (coeff_entries rm inv) (cm_internal (rm_mesh rm)) in
  Some (concat rows).

(** ** Gradients: operator_fluxes_ceed.c:998-1039 ComputeLeastSquaresGradients *)

(* the gradient array of field [k] (0: h, 1: hu, 2: hv), two entries for each cell; the loop treats the three
   fields independently *)
Definition add_gradient (rm : rmesh) (coeffs q : list R) (k : nat) (g : list R) (ie : nat * nat) : option (list R) :=
  let cl := left_cell (rm_mesh rm) (snd ie) in let cr := right_cell (rm_mesh rm) (snd ie) in
  let* cs := fetch coeffs (fst ie * 4) 4 in
  let* ql := nth_error q (cl * 3 + k) in
  let* qr := nth_error q (cr * 3 + k) in
  let dq := qr - ql in
  let* g := add_into g (cl * 2) [nth 0 cs 0 * dq; nth 1 cs 0 * dq] in
  add_into g (cr * 2) [nth 2 cs 0 * dq; nth 3 cs 0 * dq].
Definition gradient_field (rm : rmesh) (coeffs q : list R) (k : nat) : option (list R) :=
  ofold (add_gradient rm coeffs q k) (combine (seq 0 (length (cm_internal (rm_mesh rm)))) (cm_internal (rm_mesh rm)))
        (repeat 0 (cm_cells (rm_mesh rm) * 2)).
Definition ComputeLeastSquaresGradients (rm : rmesh) (coeffs q : list R) : option (list (list R)) :=
  omap (gradient_field rm coeffs q) (seq 0 3).

(** ** Exchange: operator_fluxes_ceed.c:1057-1108 CommunicateCellGradients *)

(* :1081-1092: component [k] of the gradients of the owned cells, in a vector with three entries for each *)
Definition pack_cell (m : cmesh) (grads : list (list R)) (k : nat) (x : list R) (c : nat) : option (list R) :=
  if cm_owned m c then
    ofold (fun x i => let* g := nth_error grads i in let* v := nth_error g (c * 2 + k) in upd x (3 * cm_l2o m c + i) v) (seq 0 3) x
  else Some x.
Definition pack (m : cmesh) (grads : list (list R)) (k : nat) : option (list R) :=
  ofold (pack_cell m grads k) (seq 0 (cm_cells m)) (repeat 0 (3 * length (owned_cells m))).
(* :1094-1102: all local cells read their entries back *)
Definition unpack_field (m : cmesh) (l : list R) (k i : nat) (g : list R) : option (list R) :=
  ofold (fun g c => let* v := nth_error l (3 * c + i) in upd g (c * 2 + k) v) (seq 0 (cm_cells m)) g.
Definition unpack (m : cmesh) (l : list R) (k : nat) (grads : list (list R)) : option (list (list R)) :=
  omap (fun ig => unpack_field m l k (fst ig) (snd ig)) (combine (seq 0 (length grads)) grads).

(* A process: its mesh and, for each local cell, the process that owns the cell and the position of the cell
   among those owned there (the PetscSF of the DM). *)
Record process := Process { pr_mesh : rmesh; pr_owner : nat -> nat * nat }.
(* DMGlobalToLocal with INSERT_VALUES, three entries for each cell *)
Definition global_to_local (p : process) (global : list (list R)) : option (list R) :=
  let* rows := omap (fun c => let* g := nth_error global (fst (pr_owner p c)) in fetch g (snd (pr_owner p c) * 3) 3)
                    (seq 0 (cm_cells (rm_mesh (pr_mesh p)))) in
  Some (concat rows).
(* :1077-1103, one component of the gradients, on all processes *)
Definition communicate_component (ps : list process) (k : nat) (all : list (list (list R))) : option (list (list (list R))) :=
  let* global := omap (fun pg => pack (rm_mesh (pr_mesh (fst pg))) (snd pg) k) (combine ps all) in
  omap (fun pg => let* l := global_to_local (fst pg) global in unpack (rm_mesh (pr_mesh (fst pg))) l k (snd pg)) (combine ps all).
Definition CommunicateCellGradients (ps : list process) (all : list (list (list R))) : option (list (list (list R))) :=
  ofold (fun all k => communicate_component ps k all) (seq 0 2) all.

(** ** Face values: operator_fluxes_ceed.c:1155-1206 ReconstructFaceValues *)

(* :1172-1181: displacement from the centroid of cell [c] to the midpoint of edge [e] *)
Definition to_face (rm : rmesh) (e c : nat) : pt :=
  let v0 := vertex_beg (rm_mesh rm) e in let v1 := vertex_end (rm_mesh rm) e in
  Pt (1/2 * (px (rm_point rm v0) + px (rm_point rm v1)) - px (rm_centroid rm c))
     (1/2 * (py (rm_point rm v0) + py (rm_point rm v1)) - py (rm_centroid rm c)).
(* :1186-1196: values of field [k] at the two sides *)
Definition face_values (lim : limiter) (rm : rmesh) (q : list R) (grads : list (list R)) (e k : nat) : option (R * R) :=
  let cl := left_cell (rm_mesh rm) e in let cr := right_cell (rm_mesh rm) e in
  let* g := nth_error grads k in
  let* gl := fetch g (cl * 2) 2 in
  let* gr := fetch g (cr * 2) 2 in
  let extrap_L := nth 0 gl 0 * px (to_face rm e cl) + nth 1 gl 0 * py (to_face rm e cl) in
  let extrap_R := nth 0 gr 0 * px (to_face rm e cr) + nth 1 gr 0 * py (to_face rm e cr) in
  let* ql := nth_error q (cl * 3 + k) in
  let* qr := nth_error q (cr * 3 + k) in
  let dq := qr - ql in
  Some (ql + LimitSlope lim extrap_L (1/2 * dq), qr + LimitSlope lim extrap_R (- (1/2) * dq)).
(* :1165-1202: six entries for each owned internal edge, in the order of the edges; depths are clamped *)
Definition face_entries (lim : limiter) (rm : rmesh) (q : list R) (grads : list (list R)) (e : nat) : option (list R) :=
  let* h := face_values lim rm q grads e 0 in
  let* hu := face_values lim rm q grads e 1 in
  let* hv := face_values lim rm q grads e 2 in
  Some [Rmax 0 (fst h); fst hu; fst hv; Rmax 0 (snd h); snd hu; snd hv].
Definition ReconstructFaceValues (lim : limiter) (rm : rmesh) (q : list R) (grads : list (list R)) : option (list R) :=
  let* rows := omap (face_entries lim rm q grads) (owned_internal (rm_mesh rm)) in Some (concat rows).

(** ** The operator *)

(* swe_muscl_fluxes_ceed.h:43-95 SWEFlux_MUSCL, one point; ComputeDhv_MUSCL (:22-26) is ComputeDhv *)
Definition SWEFlux_MUSCL (tiny_h h_anuga dt : R) (ins : list (list R)) : option (list (option (list R))) :=
  let* geom := nth_error ins 0 in
  let* q_left_face := nth_error ins 1 in
  let* q_right_face := nth_error ins 2 in
  let* eta_vert_beg := nth_error ins 3 in
  let* eta_vert_end := nth_error ins 4 in
  let* l := swe_state q_left_face in
  let* r := swe_state q_right_face in
  let qL := V3 (Rmax 0 (c0 l)) (c1 l) (c2 l) in
  let qR := V3 (Rmax 0 (c0 r)) (c1 r) (c2 r) in
  let* z_beg := nth_error geom 4 in
  let* z_end := nth_error geom 5 in
  let* eta_beg := nth_error eta_vert_beg 0 in
  let* eta_end := nth_error eta_vert_end 0 in
  let* sn := nth_error geom 0 in
  let* cn := nth_error geom 1 in
  let* wL := nth_error geom 2 in
  let* wR := nth_error geom 3 in
  let* p := ceed_interior_edge GRAVITY tiny_h h_anuga qL qR sn cn (ComputeDhv z_beg z_end eta_beg eta_end) in
  let '(f, amax) := p in
  Some [Some (map (fun x => x * wL) (comps3 f)); Some (map (fun x => x * wR) (comps3 f)); Some [- amax * wL * dt; amax * wR * dt]].

(* operator_fluxes_ceed.c:1218-1390 CreateCeedInteriorFluxSuboperatorReconstructed; [faces] is the contents of
   q_reconstructed, [dt] the time step in the context of this operator *)
Definition CreateCeedInteriorFluxSuboperatorReconstructed (cf : cconfig) (m : cmesh) (eta faces : list R) (dt : R) : option ceed_operator :=
  let es := owned_internal m in
  let n := length es in
  let* g := omap (interior_geom m) es in
  Some (CeedOp
    (QFunction
       [("geom", 6%nat); ("q_left_face", 3%nat); ("q_right_face", 3%nat); ("eta_vert_beg", 1%nat); ("eta_vert_end", 1%nat)]
       [("cell_left", 3%nat); ("cell_right", 3%nat); ("courant_number", 2%nat)]
       (SWEFlux_MUSCL (cf_tiny_h cf) (cf_h_anuga cf) dt))
    [OpField "geom" (strided n 6) (Some (concat g));
     OpField "q_left_face" (Restriction (map (fun i => i * 2 * 3)%nat (seq 0 n)) 3) (Some faces);
     OpField "q_right_face" (Restriction (map (fun i => i * 2 * 3 + 3)%nat (seq 0 n)) 3) (Some faces);
     OpField "eta_vert_beg" (Restriction (map (fun e => vertex_beg m e * 1)%nat es) 1) (Some eta);
     OpField "eta_vert_end" (Restriction (map (fun e => vertex_end m e * 1)%nat es) 1) (Some eta);
     OpField "cell_left" (Restriction (map (fun e => cm_l2o m (left_cell m e) * 3)%nat es) 3) None;
     OpField "cell_right" (Restriction (map (fun e => cm_l2o m (right_cell m e) * 3)%nat es) 3) None;
     OpField "courant_number" (strided n 2) (Some (repeat 0 (n * 2)))]).

(* operator.c:353-363 and 387-398: second order is refused with tracers; the limiter of the libCEED back end.
   numerics.limiter is not consulted, nor the option -van_leer *)
Definition ceed_limiter (cfg : limiter) (cfg_no_limiter opt_no_limiter opt_van_leer : bool) : limiter :=
  let use_limiter := negb cfg_no_limiter in
  let use_limiter := if opt_no_limiter then false else use_limiter in
  if use_limiter then LimMinmod else LimNone.

(* operator.c:542-588: the local right-hand side of one process after the flux operators, from the exchanged
   gradients; boundary edges are first order ([dt]: time step in the contexts of the boundary operators) *)
Definition muscl_flux_rhs (lim : limiter) (cf : cconfig) (rm : rmesh) (eta : list R) (grads : list (list R)) (dt_muscl dt : R)
           (bs : list cboundary) (u : list R) : option (list R) :=
  if Nat.eqb (num_tracers cf) 0 then
    let m := rm_mesh rm in
    let* faces := ReconstructFaceValues lim rm u grads in
    let* i := CreateCeedInteriorFluxSuboperatorReconstructed cf m eta faces dt_muscl in
    let* l := omap (CreateCeedBoundaryFluxSuboperator cf m eta dt) bs in
    apply_add_all (i :: l) u (repeat 0 (3 * cm_cells m))
  else None.

(* operator.c:542-546: the gradients on all processes, from their local solutions *)
Definition all_gradients (ps : list process) (us : list (list R)) : option (list (list (list R))) :=
  let* all := omap (fun pu => let* coeffs := PrecomputeLSGradCoeffs (pr_mesh (fst pu)) in
                              ComputeLeastSquaresGradients (pr_mesh (fst pu)) coeffs (snd pu)) (combine ps us) in
  CommunicateCellGradients ps all.
