(** Source terms of the flow equations: bed slope, bottom friction, external sources. *)
From Verif Require Import Base RoeModel.

(* include/private/rdyconfigimpl.h RDySourceMethod; the libCEED back end also has a variant without
   friction (swe_sources_ceed.h:170 SWESourcesWithoutBedFriction). *)
Inductive friction := NoFriction | SemiImplicit | XQ2018 (threshold : R).

(* swe_petsc.c:747-764 (semi-implicit friction of a wet cell).  [F] is the flux divergence
   ("riemannf"), [n] Manning's coefficient, [(bedx,bedy)] the bed slope force. *)
Definition petsc_semi_implicit (dt n : R) (q F : vec3) (bedx bedy : R) : option (R * R) :=
  let h := c0 q in let hu := c1 q in let hv := c2 q in
  let* u := rdiv hu h in
  let* v := rdiv hv h in
  let* hp := rpowneg h (- (1/3)) in
  let Cd := GRAVITY * (n * n) * hp in
  let* velocity := rsqrt (u * u + v * v) in
  let* tb := rdiv (Cd * velocity) h in
  let* factor := rdiv tb (1 + dt * tb) in
  Some ((hu + dt * c1 F - dt * bedx) * factor, (hv + dt * c2 F - dt * bedy) * factor).

(* swe_petsc.c:868-901 (XQ2018 friction of a wet cell); swe_sources_ceed.h:68-105 is the same with
   [gravity] in place of GRAVITY. *)
Definition xq2018_friction (gravity dt threshold n : R) (q F : vec3) (bedx bedy : R) : option (R * R) :=
  let h := c0 q in
  let mx := c1 q + (c1 F - bedx) * dt in
  let my := c2 q + (c2 F - bedy) * dt in
  let* hp43 := rpowneg h (- (4/3)) in
  let* ux := rdiv mx h in
  let* uy := rdiv my h in
  let* speed := rsqrt (ux * ux + uy * uy) in
  let lambda := gravity * (n * n) * hp43 * speed in
  let* p :=
    if dt * lambda <? threshold then Some (mx, my)
    else
      let* s := rsqrt (1 + 4 * dt * lambda) in
      let* qx := rdiv (mx - mx * s) (- 2 * dt * lambda) in
      let* qy := rdiv (my - my * s) (- 2 * dt * lambda) in
      Some (qx, qy) in
  let '(qx, qy) := p in
  let* q_magnitude := rsqrt (qx * qx + qy * qy) in
  let* hp73 := rpowneg h (- (7/3)) in
  Some (gravity * (n * n) * hp73 * qx * q_magnitude, gravity * (n * n) * hp73 * qy * q_magnitude).

(* swe_petsc.c:742-746, 859-863: bed slope force (absent with hydrostatic reconstruction) *)
Definition bed_force (include_bed_slope : bool) (gravity dz h : R) : R :=
  if include_bed_slope then dz * gravity * h else 0.

(* swe_petsc.c:733-790 ApplySourceSemiImplicit / :850-917 ApplySourceImplicitXQ2018, one owned cell:
   the amount added to the right-hand side.  [None] = a non-finite value is produced. *)
Definition petsc_source (fr : friction) (bed : bool) (dt tiny_h n dzdx dzdy : R) (q F src : vec3)
  : option vec3 :=
  let h := c0 q in
  let bedx := bed_force bed GRAVITY dzdx h in
  let bedy := bed_force bed GRAVITY dzdy h in
  let* tb :=
    if tiny_h <=? h then
      match fr with
      | NoFriction => Some (0, 0)
      | SemiImplicit => petsc_semi_implicit dt n q F bedx bedy
      | XQ2018 thr => xq2018_friction GRAVITY dt thr n q F bedx bedy
      end
    else Some (0, 0) in
  let '(tbx, tby) := tb in
  Some (V3 (c0 src) (- bedx - tbx + c1 src) (- bedy - tby + c2 src)).

(* the right-hand side after the source operator: flux divergence plus source (operator.c:656-672
   applies the flux operator, then the source operator, into the same vector) *)
Definition petsc_rhs (fr : friction) (bed : bool) (dt tiny_h n dzdx dzdy : R) (q F src : vec3) : option vec3 :=
  let* s := petsc_source fr bed dt tiny_h n dzdx dzdy q F src in Some (vadd F s).

(* swe_sources_ceed.h:38-63 SWESemiImplicitBedFrictionRoughness *)
Definition ceed_semi_implicit (gravity dt tiny_h h_anuga n : R) (q F : vec3) (bedx bedy : R) : option (R * R) :=
  let h := c0 q in let hu := c1 q in let hv := c2 q in
  let denom := h * h + h_anuga * h_anuga in
  let* u := SafeDiv (hu * h) denom h tiny_h in
  let* v := SafeDiv (hv * h) denom h tiny_h in
  let* hp := rpowneg h (- (1/3)) in
  let Cd := gravity * (n * n) * hp in
  let* velocity := rsqrt (u * u + v * v) in
  let* tb := rdiv (Cd * velocity) h in
  let* factor := rdiv tb (1 + dt * tb) in
  Some ((hu + dt * (c1 F - bedx)) * factor, (hv + dt * (c2 F - bedy)) * factor).

(* swe_sources_ceed.h:107-168 SWESources, one cell: the whole right-hand side *)
Definition ceed_rhs (fr : friction) (bed : bool) (gravity dt tiny_h h_anuga n dzdx dzdy : R) (q F src : vec3)
  : option vec3 :=
  let h := c0 q in
  let bedx := bed_force bed gravity dzdx h in
  let bedy := bed_force bed gravity dzdy h in
  let* tb :=
    if tiny_h <? h then
      match fr with
      | NoFriction => Some (0, 0)
      | SemiImplicit => ceed_semi_implicit gravity dt tiny_h h_anuga n q F bedx bedy
      | XQ2018 thr => xq2018_friction gravity dt thr n q F bedx bedy
      end
    else Some (0, 0) in
  let '(tbx, tby) := tb in
  Some (V3 (c0 F + c0 src) (c1 F - bedx - tbx + c1 src) (c2 F - bedy - tby + c2 src)).

(* One explicit Euler step of PETSc's TS: u <- u + dt * rhs. *)
Definition euler (dt : R) (q rhs : vec3) : vec3 := vadd q (vscal dt rhs).
