(** Edge kernels: what one interior or boundary edge contributes, on both back ends. *)
From Verif Require Import Base RoeModel.

Definition prim_dry (tiny_h : R) (P : prim) : bool := Rltb (ph P) tiny_h.

(* src/swe/swe_petsc.c:244-310 ApplyInteriorFlux, one edge: velocities of both sides, Riemann
   flux, and the guard !(hr < tiny_h && hl < tiny_h) in front of the accumulation.  A skipped
   edge contributes nothing, which is the zero flux with wave speed 0.  The flux of a skipped edge
   is computed but never read. *)
Definition petsc_interior_edge (tiny_h h_anuga : R) (qL qR : vec3) (sn cn : R) : option (vec3 * R) :=
  let* L := petsc_velocities tiny_h h_anuga qL in
  let* Rt := petsc_velocities tiny_h h_anuga qR in
  if (prim_dry tiny_h Rt && prim_dry tiny_h L)%bool then Some (vzero, 0)
  else petsc_roe_flux L Rt sn cn.

(* include/private/rdyconfigimpl.h RDyConditionType (the three supported flow conditions) *)
Inductive bcond := BCDirichlet (q : vec3) | BCReflecting | BCCriticalOutflow.

(* src/swe/swe_petsc.c:434-461 ApplyReflectingBC *)
Definition petsc_reflect (L : prim) (sn cn : R) : prim :=
  let dum1 := sn * sn - cn * cn in
  let dum2 := 2 * sn * cn in
  Prim (ph L) (pu L * dum1 - pv L * dum2) (- pu L * dum2 - pv L * dum1).

(* src/swe/swe_petsc.c:465-503 ApplyCriticalOutflowBC: new left and right states *)
Definition petsc_outflow (L : prim) (sn cn : R) : option (prim * prim) :=
  let uperp := pu L * cn + pv L * sn in
  if uperp <? 0 then Some (Prim 0 0 0, Prim 0 0 0)
  else
    let q := ph L * Rabs uperp in
    let* x := rdiv (q * q) GRAVITY in
    let* hr := rcbrt x in
    let* velocity := rsqrt (GRAVITY * hr) in
    Some (L, Prim hr (velocity * cn) (velocity * sn)).

(* src/swe/swe_petsc.c:540-573: the Riemann states on a boundary edge whose cell is owned *)
Definition petsc_boundary_states (tiny_h h_anuga : R) (bc : bcond) (qL : vec3) (sn cn : R)
  : option (prim * prim) :=
  let* L := petsc_velocities tiny_h h_anuga qL in
  match bc with
  | BCDirichlet qR => let* Rt := petsc_velocities tiny_h h_anuga qR in Some (L, Rt)
  | BCReflecting => Some (L, petsc_reflect L sn cn)
  | BCCriticalOutflow => petsc_outflow L sn cn
  end.

(* src/swe/swe_petsc.c:584-612: contribution to the time derivative of the owned cell *)
Definition petsc_boundary_edge (tiny_h h_anuga : R) (bc : bcond) (qL : vec3) (sn cn : R)
  : option (vec3 * R) :=
  let* p := petsc_boundary_states tiny_h h_anuga bc qL sn cn in
  let '(L, Rt) := p in
  if (prim_dry tiny_h L && prim_dry tiny_h Rt)%bool then Some (vzero, 0)
  else petsc_roe_flux L Rt sn cn.

(* src/swe/swe_petsc.c:576-582, 629: what is stored in boundary_fluxes for the same edge (and
   then added to boundary_fluxes_accum), without any guard. *)
Definition petsc_boundary_recorded (tiny_h h_anuga : R) (bc : bcond) (qL : vec3) (sn cn : R)
  : option vec3 :=
  let* p := petsc_boundary_states tiny_h h_anuga bc qL sn cn in
  let '(L, Rt) := p in
  let* f := petsc_roe_flux L Rt sn cn in Some (fst f).

(** ** libCEED *)

(* src/swe/swe_fluxes_ceed.h:45-98 SWEFlux, one quadrature point (= one edge) *)
Definition ceed_interior_edge (gravity tiny_h h_anuga : R) (qL qR : vec3) (sn cn dhv : R)
  : option (vec3 * R) :=
  if ((tiny_h <? c0 qL) || (tiny_h <? c0 qR))%bool
  then ceed_roe_flux gravity tiny_h h_anuga qL qR sn cn dhv
  else Some (vzero, 0).

(* src/swe/swe_fluxes_ceed.h:105-152 SWEBoundaryFlux_Dirichlet,
   :159-211 SWEBoundaryFlux_Reflecting, :218-271 SWEBoundaryFlux_Outflow.
   The value is both the contribution (times geom[2]) and the recorded boundary flux. *)
Definition ceed_boundary_edge (gravity tiny_h h_anuga : R) (bc : bcond) (qL : vec3) (sn cn dhv : R)
  : option (vec3 * R) :=
  match bc with
  | BCDirichlet qR => ceed_interior_edge gravity tiny_h h_anuga qL qR sn cn dhv
  | BCReflecting =>
    if tiny_h <? c0 qL then
      let dum1 := sn * sn - cn * cn in
      let dum2 := 2 * sn * cn in
      let qR := V3 (c0 qL) (c1 qL * dum1 - c2 qL * dum2) (- c1 qL * dum2 - c2 qL * dum1) in
      ceed_roe_flux gravity tiny_h h_anuga qL qR sn cn dhv
    else Some (vzero, 0)
  | BCCriticalOutflow =>
    let q := c1 qL * cn + c2 qL * sn in
    let qabs := Rabs q in
    let* x := rdiv (qabs * qabs) gravity in
    let* hR := rcbrt x in
    let* speed := rsqrt (gravity * hR) in
    let qR := V3 hR (hR * speed * cn) (hR * speed * sn) in
    if (((tiny_h <? c0 qL) || (tiny_h <? hR)) && (0 <=? q))%bool
    then ceed_roe_flux gravity tiny_h h_anuga qL qR sn cn dhv
    else Some (vzero, 0)
  end.
