(** Assembly of the time derivative over a mesh, and time stepping. *)
From Verif Require Import Base RoeModel EdgeModel HRModel SourceModel.

(** ** Meshes *)

(* An interior edge: local ids of its left and right cell (edges->cell_ids), length and direction
   cosines (rdymesh.c:504-516, 554-713). *)
Record iedge := IEdge { ie_l : nat; ie_r : nat; ie_len : R; ie_sn : R; ie_cn : R }.
(* A boundary edge: its only cell, length, direction cosines, and the condition on it (with the
   Dirichlet values of this edge). *)
Record bedge := BEdge { be_c : nat; be_len : R; be_sn : R; be_cn : R; be_bc : bcond }.

Record mesh := Mesh {
  cells : list nat;          (* cells of the (local) mesh *)
  area : nat -> R;           (* cells->areas *)
  iedges : list iedge;       (* edges->internal_edge_ids, in order *)
  bedges : list bedge;       (* the edges of all boundaries, in the order of the sub-operators *)
}.

(** ** Loops.  Generic in the type [V] of per-cell vectors ([add], [scal] are "+=" and scaling,
    component by component). *)
Section Loops.
  Context {V : Type} (add : V -> V -> V) (scal : R -> V -> V).

  (* f_ptr[n_dof*c + i] += v_i *)
  Definition add_at (f : nat -> V) (c : nat) (v : V) : nat -> V :=
    fun k => if Nat.eqb k c then add (f k) v else f k.

  (* swe_petsc.c:279-307 (and :1135-1155, tracer_petsc.c:236-262), one edge: owned left cell
     += flux * (-len/areal), owned right cell += flux * (len/arear).  [kern] gives what is accumulated
     on the left and on the right and the wave speed; a skipped edge is one whose kernel is zero. *)
  Definition edge_update (owned : nat -> bool) (area : nat -> R) (kern : iedge -> option (V * V * R))
             (f : nat -> V) (e : iedge) : option (nat -> V) :=
    let* p := kern e in
    let '(fl, fr, _) := p in
    let* sl := rdiv (- ie_len e) (area (ie_l e)) in
    let* sr := rdiv (ie_len e) (area (ie_r e)) in
    let f1 := if owned (ie_l e) then add_at f (ie_l e) (scal sl fl) else f in
    Some (if owned (ie_r e) then add_at f1 (ie_r e) (scal sr fr) else f1).

  Definition interior_loop owned area kern (edges : list iedge) (f : nat -> V) : option (nat -> V) :=
    ofold (edge_update owned area kern) edges f.

  (* swe_petsc.c:586-612, one boundary edge: owned cell += flux * (-len/area) *)
  Definition bedge_update (owned : nat -> bool) (area : nat -> R) (kern : bedge -> option (V * R))
             (f : nat -> V) (e : bedge) : option (nat -> V) :=
    if owned (be_c e) then
      let* p := kern e in
      let* s := rdiv (- be_len e) (area (be_c e)) in
      Some (add_at f (be_c e) (scal s (fst p)))
    else Some f.

  Definition boundary_loop owned area kern (edges : list bedge) (f : nat -> V) : option (nat -> V) :=
    ofold (bedge_update owned area kern) edges f.

  (* swe_petsc.c:733-790: loop over owned cells, replacing the entry [F] of the right-hand side by
     [rhs c F] (the flux divergence plus the source terms).  Each iteration reads and writes only
     its own cell. *)
  Definition cell_update (rhs : nat -> V -> option V) (f : nat -> V) (c : nat) : option (nat -> V) :=
    let* v := rhs c (f c) in Some (fun k => if Nat.eqb k c then v else f k).

  Definition source_loop rhs (cs : list nat) (f : nat -> V) : option (nat -> V) :=
    ofold (cell_update rhs) cs f.
End Loops.

(** ** A spatial discretisation: what one edge and one cell contribute, for a state [u] *)
Record scheme := Scheme {
  s_interior : (nat -> vec3) -> iedge -> option (vec3 * vec3 * R);
  s_boundary : (nat -> vec3) -> bedge -> option (vec3 * R);
  (* dt, state, external source, cell, flux divergence -> right-hand side *)
  s_source : R -> (nat -> vec3) -> (nat -> vec3) -> nat -> vec3 -> option vec3;
}.

Definition both (r : option (vec3 * R)) : option (vec3 * vec3 * R) :=
  let* p := r in Some (fst p, fst p, snd p).

(* per-cell data of the source term *)
Record cellgeom := CellGeom { manning : nat -> R; dzdx : nat -> R; dzdy : nat -> R }.

(* operator_fluxes_petsc.c, operator_sources_petsc.c: interior flux, one boundary flux operator per
   boundary, source operator *)
Definition petsc_scheme (tiny_h h_anuga : R) (fr : friction) (g : cellgeom) : scheme :=
  Scheme (fun u e => both (petsc_interior_edge tiny_h h_anuga (u (ie_l e)) (u (ie_r e)) (ie_sn e) (ie_cn e)))
         (fun u e => petsc_boundary_edge tiny_h h_anuga (be_bc e) (u (be_c e)) (be_sn e) (be_cn e))
         (fun dt u src c F => petsc_rhs fr true dt tiny_h (manning g c) (dzdx g c) (dzdy g c) (u c) F (src c)).

(* operator_fluxes_ceed.c, operator_sources_ceed.c; [dhv] is the vertex-depth jump of the optional
   well-balancing on interior edges, [dhvb] on boundary edges (zero without it). *)
Definition ceed_scheme (tiny_h h_anuga : R) (dhv : (nat -> vec3) -> iedge -> R) (dhvb : (nat -> vec3) -> bedge -> R)
           (fr : friction) (g : cellgeom) : scheme :=
  Scheme (fun u e => both (ceed_interior_edge GRAVITY tiny_h h_anuga (u (ie_l e)) (u (ie_r e)) (ie_sn e) (ie_cn e) (dhv u e)))
         (fun u e => ceed_boundary_edge GRAVITY tiny_h h_anuga (be_bc e) (u (be_c e)) (be_sn e) (be_cn e) (dhvb u e))
         (fun dt u src c F => ceed_rhs fr true GRAVITY dt tiny_h h_anuga (manning g c) (dzdx g c) (dzdy g c) (u c) F (src c)).

(* operator_fluxes_petsc.c with hydrostatic reconstruction (swe_petsc.c:985-1270): interior edges are
   reconstructed with the cell bed elevation [z], boundary edges and friction are the standard ones,
   no bed slope force. *)
Definition petsc_hr_scheme (tiny_h h_anuga : R) (z : nat -> R) (fr : friction) (g : cellgeom) : scheme :=
  Scheme (fun u e => petsc_hr_edge tiny_h h_anuga (z (ie_l e)) (z (ie_r e)) (u (ie_l e)) (u (ie_r e)) (ie_sn e) (ie_cn e))
         (fun u e => petsc_boundary_edge tiny_h h_anuga (be_bc e) (u (be_c e)) (be_sn e) (be_cn e))
         (fun dt u src c F => petsc_rhs fr false dt tiny_h (manning g c) (dzdx g c) (dzdy g c) (u c) F (src c)).

(* operator_fluxes_hydro_recon_ceed.c, operator_sources_hydro_recon_ceed.c *)
Definition ceed_hr_scheme (tiny_h h_anuga : R) (z : nat -> R) (fr : friction) (g : cellgeom) : scheme :=
  Scheme (fun u e => ceed_hr_edge GRAVITY tiny_h h_anuga (z (ie_l e)) (z (ie_r e)) (u (ie_l e)) (u (ie_r e)) (ie_sn e) (ie_cn e))
         (fun u e => ceed_boundary_edge GRAVITY tiny_h h_anuga (be_bc e) (u (be_c e)) (be_sn e) (be_cn e) 0)
         (fun dt u src c F => ceed_rhs fr false GRAVITY dt tiny_h h_anuga (manning g c) (dzdx g c) (dzdy g c) (u c) F (src c)).

(** ** Right-hand side of the whole domain (one process owning every cell) *)

Definition everything (c : nat) : bool := true.
Definition zero_field : nat -> vec3 := fun _ => vzero.

(* operator.c:656-672 ApplyPetscOperator / :501-647 ApplyCeedOperator: fluxes into a zeroed vector
   (rdysetup.c:1131), then sources *)
Definition flux_divergence (s : scheme) (m : mesh) (u : nat -> vec3) : option (nat -> vec3) :=
  let* f := interior_loop vadd vscal everything (area m) (s_interior s u) (iedges m) zero_field in
  boundary_loop vadd vscal everything (area m) (s_boundary s u) (bedges m) f.

Definition rhs_domain (s : scheme) (m : mesh) (dt : R) (src : nat -> vec3) (u : nat -> vec3) : option (nat -> vec3) :=
  let* f := flux_divergence s m u in
  source_loop (s_source s dt u src) (cells m) f.

(** ** Time stepping (PETSc's TSEULER and TSRK4, rdysetup.c:1183-1190) *)
Definition axpy (u : nat -> vec3) (a : R) (k : nat -> vec3) : nat -> vec3 := fun c => vadd (u c) (vscal a (k c)).

Definition euler_step (F : (nat -> vec3) -> option (nat -> vec3)) (dt : R) (u : nat -> vec3) : option (nat -> vec3) :=
  let* k := F u in Some (axpy u dt k).

(* classical Runge-Kutta tableau *)
Definition rk4_step (F : (nat -> vec3) -> option (nat -> vec3)) (dt : R) (u : nat -> vec3) : option (nat -> vec3) :=
  let* k1 := F u in
  let* k2 := F (axpy u (dt / 2) k1) in
  let* k3 := F (axpy u (dt / 2) k2) in
  let* k4 := F (axpy u dt k3) in
  Some (axpy (axpy (axpy (axpy u (dt / 6) k1) (dt / 3) k2) (dt / 3) k3) (dt / 6) k4).

Inductive integrator := Euler | RK4.
Definition ts_step (i : integrator) := match i with Euler => euler_step | RK4 => rk4_step end.

(* What is in force during one step: its length, the mesh with the current boundary values, and the
   external sources.  The right-hand side is evaluated with dt = the step of the time integrator
   (rdysetup.c:1128-1129). *)
Record step_input := StepInput { st_dt : R; st_bedges : list bedge; st_src : nat -> vec3 }.
Definition with_boundary (m : mesh) (b : list bedge) : mesh := Mesh (cells m) (area m) (iedges m) b.

Definition advance_step (i : integrator) (s : scheme) (m : mesh) (u : nat -> vec3) (x : step_input) : option (nat -> vec3) :=
  ts_step i (rhs_domain s (with_boundary m (st_bedges x)) (st_dt x) (st_src x)) (st_dt x) u.

(* a whole run *)
Definition run (i : integrator) (s : scheme) (m : mesh) (xs : list step_input) (u : nat -> vec3) : option (nat -> vec3) :=
  ofold (advance_step i s m) xs u.
