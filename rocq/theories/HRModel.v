(** Edge kernels of the hydrostatic-reconstruction scheme, both back ends. *)
From Verif Require Import Base RoeModel EdgeModel.

(* swe_petsc.c:1052-1059 / swe_fluxes_hydro_recon_ceed.h:84-94: reconstructed depth of the side with
   depth [h], bed [z], when the other side's bed is [zo] *)
Definition hr_depth (h z zo : R) : R := let z_max := Rmax z zo in Rmax 0 (h + z - z_max).

(* swe_petsc.c:1061-1068 (h > tiny_h ? hu*h/denom : 0.0), which is the same expression as the
   SafeDiv of the libCEED version (swe_fluxes_hydro_recon_ceed.h:96-103). *)
Definition hr_velocity := ceed_velocities.

(* swe_petsc.c:1140-1156: hydrostatic pressure correction of one side *)
Definition hr_correction (gravity h hrec sn cn : R) : vec3 :=
  let corr := 1/2 * gravity * (h * h - hrec * hrec) in V3 0 (corr * cn) (corr * sn).

(* swe_petsc.c:1035-1157 ApplyInteriorFluxHR, one interior edge.  The Riemann solver is called for
   every edge; its result is only read behind the inner guard.  Result: what the left and the right
   cell receive (before the factors -len/areal, len/arear), and the wave speed. *)
Definition petsc_hr_edge (tiny_h h_anuga zL zR : R) (qL qR : vec3) (sn cn : R) : option (vec3 * vec3 * R) :=
  if ((c0 qR <? tiny_h) && (c0 qL <? tiny_h))%bool then Some (vzero, vzero, 0)
  else
    let hL := hr_depth (c0 qL) zL zR in
    let hR := hr_depth (c0 qR) zR zL in
    let* L := hr_velocity tiny_h h_anuga qL in
    let* Rt := hr_velocity tiny_h h_anuga qR in
    let* p :=
      if ((tiny_h <? hL) || (tiny_h <? hR))%bool
      then petsc_roe_flux (Prim hL (pu L) (pv L)) (Prim hR (pu Rt) (pv Rt)) sn cn
      else Some (vzero, 0) in
    let '(f, a) := p in
    Some (vadd f (hr_correction GRAVITY (c0 qL) hL sn cn), vadd f (hr_correction GRAVITY (c0 qR) hR sn cn), a).

(* swe_fluxes_hydro_recon_ceed.h:64-157 SWEFlux_HydroRecon, one edge.  The reconstructed states are
   passed to the Riemann solver as (h, h u, h v), which recomputes the velocities from them. *)
Definition ceed_hr_edge (gravity tiny_h h_anuga zL zR : R) (qL qR : vec3) (sn cn : R)
  : option (vec3 * vec3 * R) :=
  let hL := hr_depth (c0 qL) zL zR in
  let hR := hr_depth (c0 qR) zR zL in
  let* L := ceed_velocities tiny_h h_anuga qL in
  let* Rt := ceed_velocities tiny_h h_anuga qR in
  if ((tiny_h <? c0 qL) || (tiny_h <? c0 qR))%bool then
    let* p :=
      if ((tiny_h <? hL) || (tiny_h <? hR))%bool
      then ceed_roe_flux gravity tiny_h h_anuga (V3 hL (hL * pu L) (hL * pv L)) (V3 hR (hR * pu Rt) (hR * pv Rt)) sn cn 0
      else Some (vzero, 0) in
    let '(f, a) := p in
    Some (vadd f (hr_correction gravity (c0 qL) hL sn cn), vadd f (hr_correction gravity (c0 qR) hR sn cn), a)
  else Some (vzero, vzero, 0).
