(** Second-order (MUSCL) reconstruction: least-squares gradients, slope limiters, face values, and the
    second-order discretisations of both back ends. *)
From Verif Require Import Base RoeModel EdgeModel SourceModel AssemblyModel.

Record pt := Pt { px : R; py : R }.
(* cell centroids and edge midpoints (0.5*(v0+v1), operator_fluxes_ceed.c:1172-1175) *)
Record geometry := Geometry { centroid : nat -> pt; midpoint : iedge -> pt }.

(** ** Gradient coefficients: operator_fluxes_ceed.c:884-981 PrecomputeLSGradCoeffs *)

(* displacement from the left to the right centroid, :907-908 and :963-964 *)
Definition disp (G : geometry) (e : iedge) : pt :=
  Pt (px (centroid G (ie_r e)) - px (centroid G (ie_l e))) (py (centroid G (ie_r e)) - py (centroid G (ie_l e))).
(* :909-910: d = sqrt(dx^2+dy^2), w = d > 0 ? 1/d : 0 *)
Definition ls_weight (G : geometry) (e : iedge) : R :=
  let d := sqrt (px (disp G e) * px (disp G e) + py (disp G e) * py (disp G e)) in
  if 0 <? d then 1 / d else 0.

(* symmetric 2x2 matrices [m00, m01, m11] *)
Record sym2 := Sym2 { m00 : R; m01 : R; m11 : R }.
Definition madd (a b : sym2) : sym2 := Sym2 (m00 a + m00 b) (m01 a + m01 b) (m11 a + m11 b).

(* :902-920 pass 1 *)
Definition ls_term (G : geometry) (e : iedge) : sym2 :=
  let w := ls_weight G e in let dx := px (disp G e) in let dy := py (disp G e) in
  Sym2 (w * dx * dx) (w * dx * dy) (w * dy * dy).
Definition ls_matrix (G : geometry) (es : list iedge) : nat -> sym2 :=
  fold_left (fun M e => add_at madd (add_at madd M (ie_l e) (ls_term G e)) (ie_r e) (ls_term G e)) es (fun _ => Sym2 0 0 0).

(* :926-946: inverse, zero if |det| < 1e-15 *)
Definition sdet (M : sym2) : R := m00 M * m11 M - m01 M * m01 M.
Definition degenerate_det : R := / (10 ^ 15).
Definition ls_inverse (M : sym2) : sym2 :=
  let det := sdet M in
  if Rabs det <? degenerate_det then Sym2 0 0 0
  else let inv_det := 1 / det in Sym2 (m11 M * inv_det) (- m01 M * inv_det) (m00 M * inv_det).

(* :956-977 pass 2: (cx, cy) of one side of an edge *)
Definition ls_coeff (G : geometry) (inv : sym2) (e : iedge) : pt :=
  let w := ls_weight G e in
  let wdx := w * px (disp G e) in let wdy := w * py (disp G e) in
  Pt (m00 inv * wdx + m01 inv * wdy) (m01 inv * wdx + m11 inv * wdy).

(** ** Gradients: operator_fluxes_ceed.c:998-1039 ComputeLeastSquaresGradients, one field *)
Definition padd (a b : pt) : pt := Pt (px a + px b) (py a + py b).
Definition pscal (s : R) (a : pt) : pt := Pt (px a * s) (py a * s).
Definition ls_gradients (G : geometry) (es : list iedge) (q : nat -> R) : nat -> pt :=
  let inv c := ls_inverse (ls_matrix G es c) in
  fold_left (fun g e =>
    let dq := q (ie_r e) - q (ie_l e) in
    add_at padd (add_at padd g (ie_l e) (pscal dq (ls_coeff G (inv (ie_l e)) e))) (ie_r e) (pscal dq (ls_coeff G (inv (ie_r e)) e)))
    es (fun _ => Pt 0 0).

(** ** Limiters *)
Inductive limiter := LimMinmod | LimVanLeer | LimNone.
(* operator_fluxes_ceed.c:1111-1114 *)
Definition Minmod (a b : R) : R := if a * b <=? 0 then 0 else if Rabs a <? Rabs b then a else b.
(* operator_fluxes_ceed.c:1120-1123; the guard excludes a zero denominator (see [VanLeer_safe]) *)
Definition VanLeer (a b : R) : R := if a * b <=? 0 then 0 else 2 * a * b / (a + b).
(* operator_fluxes_ceed.c:1128-1138 *)
Definition LimitSlope (lim : limiter) (extrap half_dq : R) : R :=
  match lim with LimNone => extrap | LimVanLeer => VanLeer extrap half_dq | LimMinmod => Minmod extrap half_dq end.

(* swe_petsc.c:360-370: which limiter the PETSc back end uses (for the libCEED one see CeedMusclModel.v).  [cfg]: numerics.limiter; the
   options numerics.no_limiter, -no_limiter, -van_leer are applied in this order. *)
Definition resolve_limiter (cfg : limiter) (cfg_no_limiter opt_no_limiter opt_van_leer : bool) : limiter :=
  let l := if cfg_no_limiter then LimNone else cfg in
  let l := if opt_no_limiter then LimNone else l in
  if opt_van_leer then LimVanLeer else l.

(** ** Face values: operator_fluxes_ceed.c:1155-1206 ReconstructFaceValues, one component of one edge *)
Definition extrapolate (G : geometry) (g : nat -> pt) (e : iedge) (c : nat) : R :=
  px (g c) * (px (midpoint G e) - px (centroid G c)) + py (g c) * (py (midpoint G e) - py (centroid G c)).
Definition face_left (lim : limiter) (G : geometry) (g : nat -> pt) (q : nat -> R) (e : iedge) : R :=
  q (ie_l e) + LimitSlope lim (extrapolate G g e (ie_l e)) (1/2 * (q (ie_r e) - q (ie_l e))).
Definition face_right (lim : limiter) (G : geometry) (g : nat -> pt) (q : nat -> R) (e : iedge) : R :=
  q (ie_r e) + LimitSlope lim (extrapolate G g e (ie_r e)) (- (1/2) * (q (ie_r e) - q (ie_l e))).

Definition comp (k : nat) (v : vec3) : R := match k with O => c0 v | S O => c1 v | _ => c2 v end.
(* all three components, depths clamped (:1199-1200, and again swe_petsc.c:139,142 / swe_muscl_fluxes_ceed.h:68-69) *)
Definition face_states (lim : limiter) (G : geometry) (es : list iedge) (u : nat -> vec3) (e : iedge) : vec3 * vec3 :=
  let grad k := ls_gradients G es (fun c => comp k (u c)) in
  let fl k := face_left lim G (grad k) (fun c => comp k (u c)) e in
  let fr k := face_right lim G (grad k) (fun c => comp k (u c)) e in
  (V3 (Rmax 0 (Rmax 0 (fl 0%nat))) (fl 1%nat) (fl 2%nat), V3 (Rmax 0 (Rmax 0 (fr 0%nat))) (fr 1%nat) (fr 2%nat)).

(** ** Second-order discretisations *)
(* swe_petsc.c:98-213 ApplyInteriorFlux2R: the first-order edge kernel on the face states; boundary
   edges and sources are the first-order ones *)
Definition petsc_2r_scheme (lim : limiter) (G : geometry) (es : list iedge) (tiny_h h_anuga : R) (fr : friction) (g : cellgeom) : scheme :=
  let s := petsc_scheme tiny_h h_anuga fr g in
  Scheme (fun u e => let q := face_states lim G es u e in
                     both (petsc_interior_edge tiny_h h_anuga (fst q) (snd q) (ie_sn e) (ie_cn e)))
         (s_boundary s) (s_source s).
(* swe_muscl_fluxes_ceed.h:47-103 SWEFlux_MUSCL, operator.c:539-600 *)
Definition ceed_2r_scheme (lim : limiter) (G : geometry) (es : list iedge) (tiny_h h_anuga : R) (dhv : (nat -> vec3) -> iedge -> R)
           (dhvb : (nat -> vec3) -> bedge -> R) (fr : friction) (g : cellgeom) : scheme :=
  let s := ceed_scheme tiny_h h_anuga dhv dhvb fr g in
  Scheme (fun u e => let q := face_states lim G es u e in
                     both (ceed_interior_edge GRAVITY tiny_h h_anuga (fst q) (snd q) (ie_sn e) (ie_cn e) (dhv u e)))
         (s_boundary s) (s_source s).
