(** Tracer transport (sediment classes, salinity, heat): Riemann solvers, edge kernels, sources and
    assembly, both back ends. *)
From Verif Require Import Base RoeModel EdgeModel HRModel SourceModel AssemblyModel.

(* State of a cell (h, hu, hv, hc_0, hc_1, ...), and anything with the same layout.  The tracers are a
   function of their index; the code has [num_tracers] of them and treats all alike. *)
Record tvec := TV { tflow : vec3; ttr : nat -> R }.
Definition tadd (a b : tvec) : tvec := TV (vadd (tflow a) (tflow b)) (fun j => ttr a j + ttr b j).
Definition tscal (s : R) (a : tvec) : tvec := TV (vscal s (tflow a)) (fun j => s * ttr a j).
Definition tzero : tvec := TV vzero (fun _ => 0).
Definition depth (q : tvec) : R := c0 (tflow q).

(* one division per tracer, by the same denominator *)
Definition rdivs (x : nat -> R) (y : R) : option (nat -> R) := if Req_EM_T y 0 then None else Some (fun j => x j / y).

(* TracerRiemannStateData entry: depth, velocities and concentrations *)
Record tprim := TPrim { tp : prim; tci : nat -> R }.

(** ** Riemann solvers *)
Inductive triemann := TRoe | TUpwind.   (* RIEMANN_ROE, RIEMANN_UPWIND_ROE *)

(* tracer_roe_flux_petsc.h:17-119 ComputeTracerRoeFlux / tracer_roe_flux_ceed.h:32-103, one edge, after
   the eigenspectrum [s].  R[j+3][0] = R[j+3][2] = cihat[j], R[j+3][j+3] = 1, A[j+3] = A[1],
   dW[j+3] = dch[j] - cihat[j]*dh; the other entries of R in row or column j+3 are zero. *)
Definition tracer_roe (g : R) (L Rt : tprim) (sn cn : R) (s : spectrum) : option (tvec * R) :=
  let hl := ph (tp L) in let hr := ph (tp Rt) in
  let* duml := rsqrt hl in
  let* dumr := rsqrt hr in
  let dh := hr - hl in
  let uperpl := pu (tp L) * cn + pv (tp L) * sn in
  let uperpr := pu (tp Rt) * cn + pv (tp Rt) * sn in
  let* cihat := rdivs (fun j => duml * tci L j + dumr * tci Rt j) (duml + dumr) in
  let dch j := tci Rt j * hr - tci L j * hl in
  let dWj j := dch j - cihat j * dh in
  let FL j := hl * uperpl * tci L j in
  let FR j := hr * uperpr * tci Rt j in
  Some (TV (assemble_flux g (tp L) (tp Rt) sn cn s)
           (fun j => 1/2 * (FL j + FR j) - 1/2 * cihat j * c0 (lam s) * c0 (dW s)
                     - 1/2 * 0 * c1 (lam s) * c1 (dW s) - 1/2 * cihat j * c2 (lam s) * c2 (dW s)
                     - 1/2 * 1 * c1 (lam s) * dWj j),
        amax s).

(* tracer_roe_flux_petsc.h:129-206 ComputeUpwindTracerRoeFlux / tracer_roe_flux_ceed.h:128-164: the flow
   components are the Roe flux; the tracers follow the sign of the water flux. *)
Definition tracer_upwind (g : R) (L Rt : tprim) (sn cn : R) (s : spectrum) : option (tvec * R) :=
  let F := assemble_flux g (tp L) (tp Rt) sn cn s in
  let Fh := c0 F in
  Some (TV F (fun j => Fh * (if 0 <=? Fh then tci L j else tci Rt j)), amax s).

Definition tracer_flux (k : triemann) := match k with TRoe => tracer_roe | TUpwind => tracer_upwind end.

Definition petsc_tracer_flux (k : triemann) (L Rt : tprim) (sn cn : R) : option (tvec * R) :=
  let* s := petsc_eigenspectrum (tp L) (tp Rt) sn cn in
  tracer_flux k GRAVITY L Rt sn cn s.

(* tracer_petsc.c:105-128 ComputeRiemannVelocitiesAndConcentration *)
Definition petsc_tracer_prim (tiny_h : R) (q : tvec) : option tprim :=
  let h := depth q in
  if h <? tiny_h then Some (TPrim (Prim h 0 0) (fun _ => 0))
  else let* u := rdiv (c1 (tflow q)) h in
       let* v := rdiv (c2 (tflow q)) h in
       let* ci := rdivs (ttr q) h in
       Some (TPrim (Prim h u v) ci).

(* tracer_roe_flux_ceed.h:20-30 and :110-122.  The concentration of the right state is guarded by the
   depth of the LEFT state: cir[j] = SafeDiv(qR.hci[j], hr, hl, tiny_h). *)
Definition ceed_tracer_left (tiny_h : R) (q : tvec) : option tprim :=
  let h := depth q in
  let* u := SafeDiv (c1 (tflow q)) h h tiny_h in
  let* v := SafeDiv (c2 (tflow q)) h h tiny_h in
  let* ci := if tiny_h <? h then rdivs (ttr q) h else Some (fun _ => 0) in
  Some (TPrim (Prim h u v) ci).
Definition ceed_tracer_right (tiny_h hl : R) (q : tvec) : option tprim :=
  let h := depth q in
  let* ci := if tiny_h <? hl then rdivs (ttr q) h else Some (fun _ => 0) in
  let* u := SafeDiv (c1 (tflow q)) h h tiny_h in
  let* v := SafeDiv (c2 (tflow q)) h h tiny_h in
  Some (TPrim (Prim h u v) ci).

(* tracer_roe_flux_ceed.h:18-104 TracerRiemannFlux_Roe, :109-165 TracerRiemannFlux_UpwindRoe *)
Definition ceed_tracer_flux (k : triemann) (gravity tiny_h : R) (qL qR : tvec) (sn cn : R) : option (tvec * R) :=
  let* L := ceed_tracer_left tiny_h qL in
  let* Rt := ceed_tracer_right tiny_h (depth qL) qR in
  let* s := ceed_eigenspectrum gravity (tp L) (tp Rt) sn cn in
  tracer_flux k gravity L Rt sn cn s.

(** ** Edge kernels *)

(* tracer_petsc.c:192-262 ApplyTracerInteriorFlux, one edge *)
Definition petsc_tracer_edge (k : triemann) (tiny_h : R) (qL qR : tvec) (sn cn : R) : option (tvec * R) :=
  let* L := petsc_tracer_prim tiny_h qL in
  let* Rt := petsc_tracer_prim tiny_h qR in
  if ((depth qR <? tiny_h) && (depth qL <? tiny_h))%bool then Some (tzero, 0)
  else petsc_tracer_flux k L Rt sn cn.

(* The conditions supported with tracers; critical outflow is refused
   (tracer_petsc.c:471-473, operator_fluxes_ceed.c). *)
Inductive tbcond := TDirichlet (q : tvec) | TReflecting.

(* tracer_petsc.c:362-393 ApplyTracerReflectingBC *)
Definition petsc_tracer_reflect (L : tprim) (sn cn : R) : tprim := TPrim (petsc_reflect (tp L) sn cn) (tci L).

(* tracer_petsc.c:434-514 ApplyTracerBoundaryFlux, one edge of an owned cell *)
Definition petsc_tracer_bedge (k : triemann) (tiny_h : R) (bc : tbcond) (qL : tvec) (sn cn : R) : option (tvec * R) :=
  let* L := petsc_tracer_prim tiny_h qL in
  let* Rt := match bc with
             | TDirichlet qR => petsc_tracer_prim tiny_h qR
             | TReflecting => Some (petsc_tracer_reflect L sn cn)
             end in
  if ((ph (tp L) <? tiny_h) && (ph (tp Rt) <? tiny_h))%bool then Some (tzero, 0)
  else petsc_tracer_flux k L Rt sn cn.

(* tracer_fluxes_ceed.h:25-77 TracerFlux *)
Definition ceed_tracer_edge (k : triemann) (gravity tiny_h : R) (qL qR : tvec) (sn cn : R) : option (tvec * R) :=
  if ((tiny_h <? depth qL) || (tiny_h <? depth qR))%bool then ceed_tracer_flux k gravity tiny_h qL qR sn cn
  else Some (tzero, 0).

(* tracer_fluxes_ceed.h:88-140 TracerBoundaryFlux_Dirichlet, :150-200 TracerBoundaryFlux_Reflecting *)
Definition ceed_tracer_bedge (k : triemann) (gravity tiny_h : R) (bc : tbcond) (qL : tvec) (sn cn : R) : option (tvec * R) :=
  match bc with
  | TDirichlet qR => ceed_tracer_edge k gravity tiny_h qL qR sn cn
  | TReflecting =>
    if tiny_h <? depth qL then
      let dum1 := sn * sn - cn * cn in
      let dum2 := 2 * sn * cn in
      let q := tflow qL in
      let qR := TV (V3 (c0 q) (c1 q * dum1 - c2 q * dum2) (- c1 q * dum2 - c2 q * dum1)) (ttr qL) in
      ceed_tracer_flux k gravity tiny_h qL qR sn cn
    else Some (tzero, 0)
  end.

(** *** Hydrostatic reconstruction *)

(* tracer_petsc.c:853-890: the state on one side *)
Definition hr_tracer_prim (tiny_h h_anuga hrec : R) (q : tvec) : option tprim :=
  let* P := hr_velocity tiny_h h_anuga (tflow q) in
  let* ci := if tiny_h <? depth q then rdivs (ttr q) (depth q) else Some (fun _ => 0) in
  Some (TPrim (Prim hrec (pu P) (pv P)) ci).

Definition tcorrection (gravity h hrec sn cn : R) : tvec := TV (hr_correction gravity h hrec sn cn) (fun _ => 0).

(* tracer_petsc.c:844-976 ApplyTracerInteriorFluxHR, one edge *)
Definition petsc_tracer_hr_edge (k : triemann) (tiny_h h_anuga zL zR : R) (qL qR : tvec) (sn cn : R) : option (tvec * tvec * R) :=
  if ((depth qR <? tiny_h) && (depth qL <? tiny_h))%bool then Some (tzero, tzero, 0)
  else
    let hL := hr_depth (depth qL) zL zR in
    let hR := hr_depth (depth qR) zR zL in
    let* L := hr_tracer_prim tiny_h h_anuga hL qL in
    let* Rt := hr_tracer_prim tiny_h h_anuga hR qR in
    let* p := if ((tiny_h <? hL) || (tiny_h <? hR))%bool then petsc_tracer_flux k L Rt sn cn else Some (tzero, 0) in
    let '(f, a) := p in
    Some (tadd f (tcorrection GRAVITY (depth qL) hL sn cn), tadd f (tcorrection GRAVITY (depth qR) hR sn cn), a).

(* tracer_fluxes_hydro_recon_ceed.h:43-150 TracerFlux_HydroRecon (only the Roe solver exists) *)
Definition ceed_tracer_hr_edge (gravity tiny_h h_anuga zL zR : R) (qL qR : tvec) (sn cn : R) : option (tvec * tvec * R) :=
  let hL := hr_depth (depth qL) zL zR in
  let hR := hr_depth (depth qR) zR zL in
  let* L := hr_tracer_prim tiny_h h_anuga hL qL in
  let* Rt := hr_tracer_prim tiny_h h_anuga hR qR in
  let rec_state (P : tprim) := TV (V3 (ph (tp P)) (ph (tp P) * pu (tp P)) (ph (tp P) * pv (tp P))) (fun j => ph (tp P) * tci P j) in
  if ((tiny_h <? depth qL) || (tiny_h <? depth qR))%bool then
    let* p := if ((tiny_h <? hL) || (tiny_h <? hR))%bool
              then ceed_tracer_flux TRoe gravity tiny_h (rec_state L) (rec_state Rt) sn cn else Some (tzero, 0) in
    let '(f, a) := p in
    Some (tadd f (tcorrection gravity (depth qL) hL sn cn), tadd f (tcorrection gravity (depth qR) hR sn cn), a)
  else Some (tzero, tzero, 0).

(** ** Sources *)

(* tracer_petsc.c:633-637, tracer_ceed.c:41-45 *)
Definition kp_constant : R := 1 / 1000.
Definition settling_velocity : R := 1 / 100.
Definition tau_critical_erosion : R := 1 / 10.
Definition tau_critical_deposition : R := 1000.
Definition rhow : R := 1000.

(* tracer_petsc.c:697-700, tracer_sources_ceed.h:68-73: bed shear stress, erosion and deposition *)
Definition tau_bed (Cd u v : R) : R := 1/2 * rhow * Cd * (u * u + v * v).
Definition erosion (tau_b : R) : R := kp_constant * (tau_b - tau_critical_erosion) / tau_critical_erosion.
Definition deposition (tau_b ci : R) : R := settling_velocity * ci * (1 - tau_b / tau_critical_deposition).

(* tracer_petsc.c:664-711 ApplyTracerSourceSemiImplicit (and :1104-1146 with hydrostatic reconstruction,
   [bed] = false), one owned cell: the right-hand side after the source operator.  The flow part is
   the one without tracers. *)
Definition petsc_tracer_rhs (bed : bool) (dt tiny_h n dzdx dzdy : R) (q F src : tvec) : option tvec :=
  let h := depth q in
  let* flow := petsc_rhs SemiImplicit bed dt tiny_h n dzdx dzdy (tflow q) (tflow F) (tflow src) in
  if tiny_h <=? h then
    let* u := rdiv (c1 (tflow q)) h in
    let* v := rdiv (c2 (tflow q)) h in
    let* hp := rpowneg h (- (1/3)) in
    let Cd := GRAVITY * (n * n) * hp in
    let* ci := rdivs (ttr q) h in
    let tau_b := tau_bed Cd u v in
    Some (TV flow (fun j => ttr F j + (erosion tau_b - deposition tau_b (ci j) + ttr src j)))
  else Some (TV flow (ttr F)).

(* tracer_sources_ceed.h:37-77, 79-134 TracerSources (semi-implicit), one cell *)
Definition ceed_tracer_rhs (bed : bool) (gravity dt tiny_h n dzdx dzdy : R) (q F src : tvec) : option tvec :=
  let h := depth q in
  let hu := c1 (tflow q) in let hv := c2 (tflow q) in
  let bedx := bed_force bed gravity dzdx h in
  let bedy := bed_force bed gravity dzdy h in
  let* r :=
    if tiny_h <? h then
      let* u := SafeDiv hu h h tiny_h in
      let* v := SafeDiv hv h h tiny_h in
      let* hp := rpowneg h (- (1/3)) in
      let Cd := gravity * (n * n) * hp in
      let* velocity := rsqrt (u * u + v * v) in
      let* tb := rdiv (Cd * velocity) h in
      let* factor := rdiv tb (1 + dt * tb) in
      let* ci := rdivs (ttr q) h in
      let tau_b := tau_bed Cd u v in
      Some ((hu + dt * (c1 (tflow F) - bedx)) * factor, (hv + dt * (c2 (tflow F) - bedy)) * factor,
            fun j : nat => erosion tau_b - deposition tau_b (ci j))
    else Some (0, 0, fun _ : nat => 0) in
  let '(tbx, tby, ed) := r in
  Some (TV (V3 (c0 (tflow F) + c0 (tflow src)) (c1 (tflow F) - bedx - tbx + c1 (tflow src)) (c2 (tflow F) - bedy - tby + c2 (tflow src)))
           (fun j => ttr F j + ed j + ttr src j)).

(* tracer_petsc.c:714-723 / tracer_sources_ceed.h:120-129: concentrations written to the primitive
   variables for output *)
Definition tracer_output_conc (tiny_h : R) (q : tvec) (j : nat) : option R :=
  if tiny_h <=? depth q then rdiv (ttr q j) (depth q) else Some 0.

(** ** Assembly: the same loops as for the flow (tracer_petsc.c:214-262, 489-514) *)
Record tscheme := TScheme {
  ts_interior : (nat -> tvec) -> iedge -> option (tvec * tvec * R);
  ts_boundary : (nat -> tvec) -> bedge -> option (tvec * R);
  ts_source : R -> (nat -> tvec) -> (nat -> tvec) -> nat -> tvec -> option tvec }.
Definition tboth (r : option (tvec * R)) : option (tvec * tvec * R) := let* p := r in Some (fst p, fst p, snd p).

Definition petsc_tracer_scheme (k : triemann) (tiny_h : R) (bcs : bedge -> tbcond) (g : cellgeom) : tscheme :=
  TScheme (fun u e => tboth (petsc_tracer_edge k tiny_h (u (ie_l e)) (u (ie_r e)) (ie_sn e) (ie_cn e)))
          (fun u e => petsc_tracer_bedge k tiny_h (bcs e) (u (be_c e)) (be_sn e) (be_cn e))
          (fun dt u src c F => petsc_tracer_rhs true dt tiny_h (manning g c) (dzdx g c) (dzdy g c) (u c) F (src c)).
Definition ceed_tracer_scheme (k : triemann) (tiny_h : R) (bcs : bedge -> tbcond) (g : cellgeom) : tscheme :=
  TScheme (fun u e => tboth (ceed_tracer_edge k GRAVITY tiny_h (u (ie_l e)) (u (ie_r e)) (ie_sn e) (ie_cn e)))
          (fun u e => ceed_tracer_bedge k GRAVITY tiny_h (bcs e) (u (be_c e)) (be_sn e) (be_cn e))
          (fun dt u src c F => ceed_tracer_rhs true GRAVITY dt tiny_h (manning g c) (dzdx g c) (dzdy g c) (u c) F (src c)).
Definition petsc_tracer_hr_scheme (k : triemann) (tiny_h h_anuga : R) (z : nat -> R) (bcs : bedge -> tbcond) (g : cellgeom) : tscheme :=
  TScheme (fun u e => petsc_tracer_hr_edge k tiny_h h_anuga (z (ie_l e)) (z (ie_r e)) (u (ie_l e)) (u (ie_r e)) (ie_sn e) (ie_cn e))
          (fun u e => petsc_tracer_bedge k tiny_h (bcs e) (u (be_c e)) (be_sn e) (be_cn e))
          (fun dt u src c F => petsc_tracer_rhs false dt tiny_h (manning g c) (dzdx g c) (dzdy g c) (u c) F (src c)).
Definition ceed_tracer_hr_scheme (tiny_h h_anuga : R) (z : nat -> R) (bcs : bedge -> tbcond) (g : cellgeom) : tscheme :=
  TScheme (fun u e => ceed_tracer_hr_edge GRAVITY tiny_h h_anuga (z (ie_l e)) (z (ie_r e)) (u (ie_l e)) (u (ie_r e)) (ie_sn e) (ie_cn e))
          (fun u e => ceed_tracer_bedge TRoe GRAVITY tiny_h (bcs e) (u (be_c e)) (be_sn e) (be_cn e))
          (fun dt u src c F => ceed_tracer_rhs false GRAVITY dt tiny_h (manning g c) (dzdx g c) (dzdy g c) (u c) F (src c)).

Definition tdivergence (s : tscheme) (m : mesh) (u : nat -> tvec) : option (nat -> tvec) :=
  let* f := interior_loop tadd tscal everything (area m) (ts_interior s u) (iedges m) (fun _ => tzero) in
  boundary_loop tadd tscal everything (area m) (ts_boundary s u) (bedges m) f.
Definition trhs (s : tscheme) (m : mesh) (dt : R) (src u : nat -> tvec) : option (nat -> tvec) :=
  let* f := tdivergence s m u in source_loop (ts_source s dt u src) (cells m) f.

(* time stepping, as for the flow alone *)
Definition taxpy (u : nat -> tvec) (a : R) (k : nat -> tvec) : nat -> tvec := fun c => tadd (u c) (tscal a (k c)).
Definition teuler_step (F : (nat -> tvec) -> option (nat -> tvec)) (dt : R) (u : nat -> tvec) : option (nat -> tvec) :=
  let* k := F u in Some (taxpy u dt k).
Definition trk4_step (F : (nat -> tvec) -> option (nat -> tvec)) (dt : R) (u : nat -> tvec) : option (nat -> tvec) :=
  let* k1 := F u in
  let* k2 := F (taxpy u (dt / 2) k1) in
  let* k3 := F (taxpy u (dt / 2) k2) in
  let* k4 := F (taxpy u dt k3) in
  Some (taxpy (taxpy (taxpy (taxpy u (dt / 6) k1) (dt / 3) k2) (dt / 3) k3) (dt / 6) k4).
Definition tts_step (i : integrator) := match i with Euler => teuler_step | RK4 => trk4_step end.
Record tstep_input := TStep { tst_dt : R; tst_src : nat -> tvec }.
Definition trun (i : integrator) (s : tscheme) (m : mesh) (xs : list tstep_input) (u : nat -> tvec) : option (nat -> tvec) :=
  ofold (fun u x => tts_step i (trhs s m (tst_dt x) (tst_src x)) (tst_dt x) u) xs u.
