(** Model of the shallow-water Riemann solver (Roe), both back ends. *)
From Verif Require Import Base.

(* src/swe/swe_types_petsc.h (#define GRAVITY 9.806), src/swe/swe_ceed.c:33 *)
Definition GRAVITY : R := 9806 / 1000.

(** Three-component vectors: (h, hu, hv) states, fluxes, wave strengths. *)
Record vec3 := V3 { c0 : R; c1 : R; c2 : R }.
Definition vadd (a b : vec3) : vec3 := V3 (c0 a + c0 b) (c1 a + c1 b) (c2 a + c2 b).
Definition vscal (s : R) (a : vec3) : vec3 := V3 (s * c0 a) (s * c1 a) (s * c2 a).
Definition vzero : vec3 := V3 0 0 0.

(* RiemannStateData entry: depth and velocities of one side of an edge
   (src/swe/swe_types_petsc.h). *)
Record prim := Prim { ph : R; pu : R; pv : R }.

(** Output of the eigenspectrum routine: the (absolute, corrected) wave speeds [lam], the
    right-eigenvector matrix by rows, the wave strengths [dW] and the maximum wave speed. *)
Record spectrum := Spectrum { lam : vec3; row0 : vec3; row1 : vec3; row2 : vec3; dW : vec3; amax : R }.

(* "critical flow fix", swe_roe_flux_petsc.h:56-67: if (a < da) a = 0.5*(a*a/da + da), with
   da = fmax(0, 2*(ar - al)). *)
Definition critical_fix (a al ar : R) : option R :=
  let da := Rmax 0 (2 * (ar - al)) in
  if a <? da then let* q := rdiv (a * a) da in Some (1/2 * (q + da)) else Some a.

(* src/swe/swe_roe_flux_petsc.h:15-81 ComputeSWERoeEigenspectrum. [pow(x,0.5)] is [rsqrt]. *)
Definition petsc_eigenspectrum (L Rt : prim) (sn cn : R) : option spectrum :=
  let hl := ph L in let ul := pu L in let vl := pv L in
  let hr := ph Rt in let ur := pu Rt in let vr := pv Rt in
  let* duml := rsqrt hl in
  let* dumr := rsqrt hr in
  let* cl := rsqrt (GRAVITY * hl) in
  let* cr := rsqrt (GRAVITY * hr) in
  let hhat := duml * dumr in
  let* uhat := rdiv (duml * ul + dumr * ur) (duml + dumr) in
  let* vhat := rdiv (duml * vl + dumr * vr) (duml + dumr) in
  let* chat := rsqrt (1/2 * GRAVITY * (hl + hr)) in
  let uperp := uhat * cn + vhat * sn in
  let dh := hr - hl in
  let du := ur - ul in
  let dv := vr - vl in
  let dupar := - du * sn + dv * cn in
  let duperp := du * cn + dv * sn in
  let uperpl := ul * cn + vl * sn in
  let uperpr := ur * cn + vr * sn in
  let* a1 := critical_fix (Rabs (uperp - chat)) (uperpl - cl) (uperpr - cr) in
  let a2 := Rabs uperp in
  let* a3 := critical_fix (Rabs (uperp + chat)) (uperpl + cl) (uperpr + cr) in
  let* r := rdiv (hhat * duperp) chat in
  Some {| lam := V3 a1 a2 a3;
          row0 := V3 1 0 1;
          row1 := V3 (uhat - chat * cn) (- sn) (uhat + chat * cn);
          row2 := V3 (vhat - chat * sn) cn (vhat + chat * sn);
          dW := V3 (1/2 * (dh - r)) (hhat * dupar) (1/2 * (dh + r));
          amax := chat + Rabs uperp |}.

(* src/swe/swe_roe_flux_ceed.h:15-79 ComputeSWEEigenspectrum_Roe: same algebra except
   cl = sqrt(gravity)*sqrt(hl). *)
Definition ceed_eigenspectrum (gravity : R) (L Rt : prim) (sn cn : R) : option spectrum :=
  let hl := ph L in let ul := pu L in let vl := pv L in
  let hr := ph Rt in let ur := pu Rt in let vr := pv Rt in
  let* sqrt_gravity := rsqrt gravity in
  let* duml := rsqrt hl in
  let* dumr := rsqrt hr in
  let cl := sqrt_gravity * duml in
  let cr := sqrt_gravity * dumr in
  let hhat := duml * dumr in
  let* uhat := rdiv (duml * ul + dumr * ur) (duml + dumr) in
  let* vhat := rdiv (duml * vl + dumr * vr) (duml + dumr) in
  let* chat := rsqrt (1/2 * gravity * (hl + hr)) in
  let uperp := uhat * cn + vhat * sn in
  let dh := hr - hl in
  let du := ur - ul in
  let dv := vr - vl in
  let dupar := - du * sn + dv * cn in
  let duperp := du * cn + dv * sn in
  let uperpl := ul * cn + vl * sn in
  let uperpr := ur * cn + vr * sn in
  let* a1 := critical_fix (Rabs (uperp - chat)) (uperpl - cl) (uperpr - cr) in
  let a2 := Rabs uperp in
  let* a3 := critical_fix (Rabs (uperp + chat)) (uperpl + cl) (uperpr + cr) in
  let* r := rdiv (hhat * duperp) chat in
  Some {| lam := V3 a1 a2 a3;
          row0 := V3 1 0 1;
          row1 := V3 (uhat - chat * cn) (- sn) (uhat + chat * cn);
          row2 := V3 (vhat - chat * sn) cn (vhat + chat * sn);
          dW := V3 (1/2 * (dh - r)) (hhat * dupar) (1/2 * (dh + r));
          amax := chat + Rabs uperp |}.

(* swe_roe_flux_petsc.h:111-123 / swe_roe_flux_ceed.h:98-110: interface fluxes FL, FR. *)
Definition side_flux (g : R) (P : prim) (sn cn : R) : vec3 :=
  let uperp := pu P * cn + pv P * sn in
  V3 (uperp * ph P)
     (pu P * uperp * ph P + 1/2 * g * ph P * ph P * cn)
     (pv P * uperp * ph P + 1/2 * g * ph P * ph P * sn).

(* one row of 0.5*(FL + FR - matmul(R,matmul(A,dW)))  (swe_roe_flux_petsc.h:125-128) *)
Definition flux_row (fl fr : R) (row A W : vec3) : R :=
  1/2 * (fl + fr - c0 row * c0 A * c0 W - c1 row * c1 A * c1 W - c2 row * c2 A * c2 W).

Definition assemble_flux (g : R) (L Rt : prim) (sn cn : R) (s : spectrum) : vec3 :=
  let FL := side_flux g L sn cn in
  let FR := side_flux g Rt sn cn in
  V3 (flux_row (c0 FL) (c0 FR) (row0 s) (lam s) (dW s))
     (flux_row (c1 FL) (c1 FR) (row1 s) (lam s) (dW s))
     (flux_row (c2 FL) (c2 FR) (row2 s) (lam s) (dW s)).

(* src/swe/swe_roe_flux_petsc.h:91-132 ComputeSWERoeFlux, body of the loop over edges. *)
Definition petsc_roe_flux (L Rt : prim) (sn cn : R) : option (vec3 * R) :=
  let* s := petsc_eigenspectrum L Rt sn cn in
  Some (assemble_flux GRAVITY L Rt sn cn s, amax s).

(* src/swe/swe_petsc.c:57-73 ComputeRiemannVelocities (one state). *)
Definition petsc_velocities (tiny_h h_anuga : R) (q : vec3) : option prim :=
  if c0 q <? tiny_h then Some (Prim (c0 q) 0 0)
  else let denom := c0 q * c0 q + h_anuga * h_anuga in
       let* u := rdiv (c1 q * c0 q) denom in
       let* v := rdiv (c2 q * c0 q) denom in
       Some (Prim (c0 q) u v).

(* swe_types_ceed.h: #define SafeDiv(a,b,c,tiny) ((c) > (tiny) ? (a)/(b) : 0.0) *)
Definition SafeDiv (a b c tiny : R) : option R := if tiny <? c then rdiv a b else Some 0.

(* src/swe/swe_roe_flux_ceed.h:84-92 *)
Definition ceed_velocities (tiny_h h_anuga : R) (q : vec3) : option prim :=
  let denom := c0 q * c0 q + h_anuga * h_anuga in
  let* u := SafeDiv (c1 q * c0 q) denom (c0 q) tiny_h in
  let* v := SafeDiv (c2 q * c0 q) denom (c0 q) tiny_h in
  Some (Prim (c0 q) u v).

(* src/swe/swe_roe_flux_ceed.h:82-120 SWERiemannFlux_Roe (including the well-balancing term in
   dhv, 117-119). *)
Definition ceed_roe_flux (gravity tiny_h h_anuga : R) (qL qR : vec3) (sn cn dhv : R)
  : option (vec3 * R) :=
  let* L := ceed_velocities tiny_h h_anuga qL in
  let* Rt := ceed_velocities tiny_h h_anuga qR in
  let* s := ceed_eigenspectrum gravity L Rt sn cn in
  let f := assemble_flux gravity L Rt sn cn s in
  Some (V3 (c0 f) (c1 f + gravity * (dhv * dhv) / 24 * cn) (c2 f + gravity * (dhv * dhv) / 24 * sn),
        amax s).
