(** The driver for manufactured solutions (src/rdymms.c): solution, sources, boundary values and roughness it
    puts into the model, error norms, convergence rates and the verdict. *)
From Coq Require Import String.
From Verif Require Import Base RoeModel SourceModel TracerModel MeshMapsModel DataModel TimeModel.
Local Open Scope R_scope.
Local Notation length := List.length.

(** ** Expressions (include/private/rdymmsconfigimpl.h:29-91) *)
(* A quantity q(x,y,t) and the expressions the configuration gives for its partial derivatives.  muParser
   evaluates an expression at all points of an array (rdymms.c:72-100). *)
Record field := Field { f_val : R -> R -> R -> R; f_dx : R -> R -> R -> R; f_dy : R -> R -> R -> R; f_dt : R -> R -> R -> R }.
Record solutions := Solutions {
  s_h : field; s_u : field; s_v : field;
  s_z : R -> R -> R; s_dzdx : R -> R -> R; s_dzdy : R -> R -> R; s_n : R -> R -> R;
  s_c : nat -> field; s_S : field; s_T : field
}.

(** ** Source terms (rdymms.c:482-720) *)
(* rdymms.c:559-583, one cell; [None]: a non-finite value *)
Definition flow_source (h u v dhdx dhdy dhdt dudx dudy dudt dvdx dvdy dvdt dzdx dzdy n : R) : option vec3 :=
  let* hp := rpowneg h (- (1/3)) in
  let Cd := GRAVITY * (n * n) * hp in
  let* speed := rsqrt (u * u + v * v) in
  Some (V3 (dhdt + u * dhdx + h * dudx + v * dhdy + h * dvdy)
           (u * dhdt + h * dudt
            + (2 * u * h * dudx + u * u * dhdx + GRAVITY * h * dhdx)
            + (u * h * dvdy + v * h * dudy + u * v * dhdy)
            + dzdx * GRAVITY * h
            + Cd * u * speed)
           (v * dhdt + h * dvdt
            + (u * h * dvdx + v * h * dudx + u * v * dhdx)
            + (v * v * dhdy + 2 * v * h * dvdy + GRAVITY * h * dhdy)
            + dzdy * GRAVITY * h
            + Cd * v * speed)).
Definition flow_source_at (s : solutions) (t : R) (p : R * R) : option vec3 :=
  let (x, y) := p in
  flow_source (f_val (s_h s) x y t) (f_val (s_u s) x y t) (f_val (s_v s) x y t)
              (f_dx (s_h s) x y t) (f_dy (s_h s) x y t) (f_dt (s_h s) x y t)
              (f_dx (s_u s) x y t) (f_dy (s_u s) x y t) (f_dt (s_u s) x y t)
              (f_dx (s_v s) x y t) (f_dy (s_v s) x y t) (f_dt (s_v s) x y t)
              (s_dzdx s x y) (s_dzdy s x y) (s_n s x y).
(* rdymms.c:617-640 with the constants of :606-610 (the same numbers as in tracer_petsc.c), one cell and class *)
Definition sediment_source (h u v dhdx dhdy dhdt dudx dvdy n ci dcdx dcdy dcdt : R) : option R :=
  let* hp := rpowneg h (- (1/3)) in
  let Cd := GRAVITY * (n * n) * hp in
  let tau_b := 1/2 * rhow * Cd * (u * u + v * v) in
  let ei := kp_constant * (tau_b - tau_critical_erosion) / tau_critical_erosion in
  let di := settling_velocity * ci * (1 - tau_b / tau_critical_deposition) in
  Some (ci * dhdt + h * dcdt
        + (u * ci * dhdx + h * ci * dudx + u * h * dcdx)
        + (v * ci * dhdy + h * ci * dvdy + v * h * dcdy)
        + - (ei - di)).
Definition sediment_source_at (s : solutions) (t : R) (i : nat) (p : R * R) : option R :=
  let (x, y) := p in
  sediment_source (f_val (s_h s) x y t) (f_val (s_u s) x y t) (f_val (s_v s) x y t)
                  (f_dx (s_h s) x y t) (f_dy (s_h s) x y t) (f_dt (s_h s) x y t)
                  (f_dx (s_u s) x y t) (f_dy (s_v s) x y t) (s_n s x y)
                  (f_val (s_c s i) x y t) (f_dx (s_c s i) x y t) (f_dy (s_c s i) x y t) (f_dt (s_c s i) x y t).
(* rdymms.c:488-502: centroids of the owned cells, in the order of the local numbering.  A cell is (owned?, centroid). *)
Definition owned_points (cells : list (bool * (R * R))) : list (R * R) := map snd (filter fst cells).
(* rdymms.c:585-587, 642: the calls made; the sources of salinity and temperature are not set (:657-699 "TODO") *)
Definition source_calls (s : solutions) (classes : nat) (pts : list (R * R)) (time : R) : option (list call) :=
  let N := Z.of_nat (length pts) in
  let* q := omap (flow_source_at s time) pts in
  let* cs := omap (fun i => let* v := omap (sediment_source_at s time i) pts in Some (RegionalSource (3 + Z.of_nat i) 1 N v)) (seq 0 classes) in
  Some (RegionalSource 0 1 N (map c0 q) :: RegionalSource 1 1 N (map c1 q) :: RegionalSource 2 1 N (map c2 q) :: cs).
Definition RDyMMSComputeSourceTerms (s : solutions) (cells : list (bool * (R * R))) (time : R) (st : rdy) : outcome rdy :=
  match source_calls s (r_classes st) (owned_points cells) time with None => Undef | Some cs => run st cs end.

(** ** Conserved quantities of the manufactured solution: h, hu, hv, h c_i, h S, h T *)
Definition product (f g : field) (t : R) (p : R * R) : R := f_val f (fst p) (snd p) t * f_val g (fst p) (snd p) t.
Definition components (s : solutions) (classes : nat) (sal heat : bool) : list (R -> R * R -> R) :=
  [(fun t p => f_val (s_h s) (fst p) (snd p) t); product (s_h s) (s_u s); product (s_h s) (s_v s)]
  ++ map (fun i => product (s_h s) (s_c s i)) (seq 0 classes)
  ++ (if sal then [product (s_h s) (s_S s)] else []) ++ (if heat then [product (s_h s) (s_T s)] else []).

(** ** Boundary values (rdymms.c:22-68, 723-806) *)
(* SetAnalyticBoundaryCondition *)
Definition analytic_condition (sal heat : bool) : bcond :=
  BCond (Some CONDITION_DIRICHLET) (Some CONDITION_DIRICHLET) (if sal then Some CONDITION_DIRICHLET else None) (if heat then Some CONDITION_DIRICHLET else None).
(* rdymms.c:745-794, one boundary: values[3 e + k], values[num_classes e + i], values[e] *)
Definition boundary_calls (s : solutions) (st : rdy) (pts : list (R * R)) (time : R) (b : nat) : list call :=
  let ne := Z.of_nat (length pts) in
  let h p := f_val (s_h s) (fst p) (snd p) time in
  [FlowValues (Z.of_nat b) ne 3 (flat_map (fun p => [h p; h p * f_val (s_u s) (fst p) (snd p) time; h p * f_val (s_v s) (fst p) (snd p) time]) pts)]
  ++ (if Nat.ltb 0 (r_classes st) then
        [SedimentValues (Z.of_nat b) ne (Z.of_nat (r_classes st)) (flat_map (fun p => map (fun i => h p * f_val (s_c s i) (fst p) (snd p) time) (seq 0 (r_classes st))) pts)] else [])
  ++ (if r_salinity st then [SalinityValues (Z.of_nat b) ne (map (fun p => h p * f_val (s_S s) (fst p) (snd p) time) pts)] else [])
  ++ (if r_heat st then [TemperatureValues (Z.of_nat b) ne (map (fun p => h p * f_val (s_T s) (fst p) (snd p) time) pts)] else []).
(* [edges]: centroids of all edges (rdymms.c:735-740) *)
Definition RDyMMSEnforceBoundaryConditions (s : solutions) (edges : list (R * R)) (time : R) (st : rdy) : outcome rdy :=
  match omap (fun bi : nat * boundary => let* pts := omap (nth_error edges) (bd_edges (snd bi)) in Some (boundary_calls s st pts time (fst bi)))
             (combine (seq 0 (length (r_boundaries st))) (r_boundaries st)) with
  | None => Undef
  | Some css => run st (concat css)
  end.
(* rdymms.c:137-151: what is done before each step *)
Definition MMSPreStep (s : solutions) (cells : list (bool * (R * R))) (edges : list (R * R)) (t dt : R) (st : rdy) : outcome rdy :=
  match RDyMMSEnforceBoundaryConditions s edges (t + 1/2 * dt) st with
  | Ok st => RDyMMSComputeSourceTerms s cells (t + 1/2 * dt) st
  | o => o
  end.

(** ** Solution vector (rdymms.c:359-479) *)
Local Open Scope nat_scope.
(* rdymms.c:386-393, 813-820: coordinates of the cells of a region taken for owned ones *)
Definition bulk_points (stride n_local : nat) (centroids : list (R * R)) (ids : list nat) : option (list (R * R)) :=
  omap (nth_error centroids) (filter (fun c => Nat.ltb (stride * c) n_local) ids).
(* rdymms.c:411-420, 430-436, 447-453, 464-470: one component; the arrays of values have one entry per local
   cell of the region, zero beyond the evaluated ones.  (The code writes the three flow components of a cell
   together; they go to different places.) *)
Fixpoint put_component (ndof n_local k l : nat) (values : list R) (ids : list nat) (x : list R) : option (list R) :=
  match ids with
  | [] => Some x
  | c :: t =>
    if Nat.ltb (ndof * c) n_local then
      let* v := nth_error values l in
      let* x := upd x (ndof * c + k) v in put_component ndof n_local k (S l) values t x
    else put_component ndof n_local k l values t x
  end.
Definition region_solution (comps : list (R * R -> R)) (n_local : nat) (centroids : list (R * R)) (x : list R) (ids : list nat) : option (list R) :=
  let ndof := length comps in
  let* pts := bulk_points 3 n_local centroids ids in
  ofold (fun x kf => put_component ndof n_local (fst kf) 0 (map (snd kf) pts ++ repeat 0%R (length ids - length pts)) ids x)
        (combine (seq 0 ndof) comps) x.
Definition RDyMMSComputeSolution (s : solutions) (classes : nat) (sal heat : bool) (n_local : nat) (centroids : list (R * R)) (regions : list (list nat)) (time : R) : option (list R) :=
  ofold (region_solution (map (fun f => f time) (components s classes sal heat)) n_local centroids) regions (repeat 0%R n_local).
(* rdymms.c:809-846 for one region: the values are written one after the other into the region's array
   (GetOperatorRegionalMaterialProperties: one entry per owned cell of the region) *)
Definition region_roughness (s : solutions) (n_local : nat) (centroids : list (R * R)) (st : rdy) (g : region) : option rdy :=
  let* pts := bulk_points (r_ncomp st) n_local centroids (rg_cells g) in
  if region_index_ok st g then edit_mat st (rg_owned g) (length pts) (fun i => let* p := nth_error pts i in Some (s_n s (fst p) (snd p))) else None.
Definition RDyMMSUpdateMaterialProperties (s : solutions) (n_local : nat) (centroids : list (R * R)) (st : rdy) : option rdy :=
  ofold (region_roughness s n_local centroids) (r_regions st) st.

(** ** Error norms (rdymms.c:853-912) *)
(* What a process has: centroids and areas of its local cells, owned_to_local, the numerical solution
   (ndof entries per owned cell) and its regions *)
Record proc := Proc { p_centroids : list (R * R); p_areas : list R; p_o2l : list nat; p_u : list R; p_regions : list (list nat) }.
Record norms := Norms { n_1 : R; n_2 : R; n_inf : R }.
Local Open Scope R_scope.
(* rdymms.c:875-889, one component; e is the error vector *)
Definition local_norms (ndof dof : nat) (e : list R) (p : proc) : option norms :=
  ofold (fun n i =>
    let* cell := nth_error (p_o2l p) i in
    let* area := nth_error (p_areas p) cell in
    let* x := nth_error e (ndof * i + dof)%nat in
    Some (Norms (n_1 n + Rabs x * area) (n_2 n + x * x * area) (Rmax (Rabs x) (n_inf n))))
    (seq 0 (length (p_o2l p))) (Norms 0 0 0).
(* rdymms.c:891-903: sums and maximum over the processes, then the square root *)
Definition global_norms (ns : list norms) : option norms :=
  let* l2 := rsqrt (rsum n_2 ns) in
  Some (Norms (rsum n_1 ns) l2 (fold_right (fun n m => Rmax (n_inf n) m) 0 ns)).
(* VecAYPX(error, -1, u): error = u - error *)
Definition subtract (u e : list R) : list R := map (fun ab => fst ab - snd ab) (combine u e).
Definition error_vector (s : solutions) (classes : nat) (sal heat : bool) (time : R) (p : proc) : option (list R) :=
  let ndof := length (components s classes sal heat) in
  let* e := RDyMMSComputeSolution s classes sal heat (ndof * length (p_o2l p))%nat (p_centroids p) (p_regions p) time in
  Some (subtract (p_u p) e).
Definition RDyMMSComputeErrorNorms (s : solutions) (classes : nat) (sal heat : bool) (time : R) (procs : list proc) (dof : nat) : option norms :=
  let ndof := length (components s classes sal heat) in
  let* ns := omap (fun p => let* e := error_vector s classes sal heat time p in local_norms ndof dof e p) procs in
  global_norms ns.
(* rdymms.c:905-912: number of cells and area as the process [rank] gets them; MPI_Reduce gives the result to
   process 0, elsewhere the variable holds whatever it held (None) *)
Definition reported_cells (procs : list proc) (rank : nat) : option nat :=
  match rank with O => Some (fold_right (fun p n => (length (p_o2l p) + n)%nat) 0%nat procs) | S _ => None end.
Definition reported_area (procs : list proc) (rank : nat) : option R :=
  match rank with
  | O => let* l := omap (fun p => omap (nth_error (p_areas p)) (p_o2l p)) procs in Some (rsum (fun a => a) (concat l))
  | S _ => None
  end.

(** ** Convergence rates (rdymms.c:923-1005) *)
(* IEEE results of log10 and of the sums below *)
Inductive ieee := Fin (r : R) | PInf | MInf | NaN.
Definition ieee_log10 (x : R) : ieee := if Rlt_dec 0 x then Fin (ln x / ln 10) else if Req_EM_T x 0 then MInf else NaN.
Definition ieee_add (a b : ieee) : ieee :=
  match a, b with
  | Fin x, Fin y => Fin (x + y)
  | NaN, _ | _, NaN | PInf, MInf | MInf, PInf => NaN
  | PInf, _ | _, PInf => PInf
  | MInf, _ | _, MInf => MInf
  end.
(* multiplication by a finite number *)
Definition ieee_scal (w : R) (a : ieee) : ieee :=
  match a with
  | Fin x => Fin (w * x)
  | NaN => NaN
  | PInf => if Rlt_dec 0 w then PInf else if Rlt_dec w 0 then MInf else NaN
  | MInf => if Rlt_dec 0 w then MInf else if Rlt_dec w 0 then PInf else NaN
  end.
(* PetscLinearRegression: slope = sum_k w_k y_k with w = second row of (X^T X)^{-1} X^T, X = [1 x];
   None: the matrix is singular (an error of LAPACK) *)
Definition regression_slope (xs : list R) (ys : list ieee) : option ieee :=
  let n := INR (length xs) in
  let sx := rsum (fun x => x) xs in
  let sxx := rsum (fun x => x * x) xs in
  let* d := rdiv 1 (n * sxx - sx * sx) in
  Some (fold_right ieee_add (Fin 0) (map (fun xy => ieee_scal ((n * fst xy - sx) * d) (snd xy)) (combine xs ys))).
(* rdymms.c:978-1003, one component and norm: [cells] the numbers of cells N_r, [errs] the norms; dim = 2 *)
Definition conv_rate (cells : list nat) (errs : list R) : option ieee :=
  let* s := regression_slope (map (fun n => ln (INR n) / ln 10) cells) (map ieee_log10 errs) in
  Some (ieee_scal 2 (ieee_scal (-1) s)).

(* Times of the study (rdymms.c:947-966): nominal step of level r, time reached by TSSolve (which only has a
   limit on the number of steps), time at which the exact solution is evaluated. *)
Definition level_dt (tc : time_config) (time_step : R) (r : nat) : option R :=
  match r with O => initial_dt tc None | S _ => Some time_step end.
Definition level_end (tc : time_config) (time_step : R) (r : nat) : option R :=
  let* dt := level_dt tc time_step r in Some (INR (tc_stop_n tc) * dt).
Definition compared_at (tc : time_config) : R := tc_stop tc.
(* rdymms.c:1044-1053, without a study: RDyGetTime in the unit of the configuration *)
Definition run_compared_at (tc : time_config) (ts_time : R) : R := RDyConvertTime SECONDS ts_time (tc_unit tc).

(** ** Verdict (rdymms.c:1008-1040) *)
Record rates := Rates { q_1 : R; q_2 : R; q_inf : R }.
(* expected_rates: h, hu, hv, c[MAX_NUM_SEDIMENT_CLASSES], S, T *)
Record expected := Expected { e_h : rates; e_hu : rates; e_hv : rates; e_c : list rates; e_S : rates; e_T : rates }.
Inductive verdict := PASS | FAIL | OUT_OF_BOUNDS.
Definition fails (rate : ieee) (want : R) : bool :=
  match rate with NaN => true | MInf => true | PInf => false | Fin r => r <=? want end.
Record measured := Measured { m_1 : ieee; m_2 : ieee; m_inf : ieee }.
Definition check_component (m : measured) (want : option rates) (k : verdict) : verdict :=
  match want with
  | None => OUT_OF_BOUNDS
  | Some w => if (fails (m_1 m) (q_1 w) || fails (m_2 m) (q_2 w) || fails (m_inf m) (q_inf w))%bool then FAIL else k
  end.
(* rdymms.c:1031-1035: the tracers are compared with c[i] *)
Fixpoint check_tracers (ms : list measured) (i : nat) (e : expected) : verdict :=
  match ms with [] => PASS | m :: t => check_component m (nth_error (e_c e) i) (check_tracers t (S i) e) end.
Definition check_rates (mh mhu mhv : measured) (tracers : list measured) (e : expected) : verdict :=
  check_component mh (Some (e_h e)) (check_component mhu (Some (e_hu e)) (check_component mhv (Some (e_hv e)) (check_tracers tracers 0 e))).
