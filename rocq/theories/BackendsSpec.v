(** Specification for C93: when a simulation is one for which the two back ends must agree. *)
From Verif Require Import Base RoeModel EdgeModel HRModel SourceModel AssemblyModel FluxProperties ConservationProperties MusclModel
  CeedLayoutModel CeedLayoutSpec CeedLayoutProperties CeedHRModel CeedRunModel CeedRunSpec.
Local Open Scope R_scope.

(* [P] holds of every state at which a run of the whole domain evaluates the right-hand side, and every evaluation is
   defined *)
Fixpoint every_state (P : step_input -> (nat -> vec3) -> Prop) (i : integrator) (s : scheme) (m : mesh) (xs : list step_input) (u : nat -> vec3) : Prop :=
  match xs with
  | [] => True
  | x :: t =>
    match stages i (rhs_domain s (with_boundary m (st_bedges x)) (st_dt x) (st_src x)) (st_dt x) u with Some l => Forall (fun w => P x (snd w)) l | None => False end /\
    match advance_step i s m u x with Some u1 => every_state P i s m t u1 | None => False end
  end.

(* a depth that both back ends take as wet, or both as dry *)
Definition clear_depth (tiny_h h : R) : Prop := 0 <= h /\ h <> tiny_h.
(* an edge of the boundary on which both compute the same *)
Definition clear_boundary (tiny_h h_anuga : R) (u : nat -> vec3) (e : bedge) : Prop :=
  clear_depth tiny_h (c0 (u (be_c e))) /\
  match be_bc e with
  | BCDirichlet q => clear_depth tiny_h (c0 q)
  | BCReflecting => True
  | BCCriticalOutflow =>
    let p := along (c1 (u (be_c e))) (c2 (u (be_c e))) (be_sn e) (be_cn e) in
    h_anuga = 0 /\ tiny_h < c0 (u (be_c e)) /\ (p < 0 \/ GRAVITY * (tiny_h * tiny_h * tiny_h) < p * p)
  end.
(* an interior edge on which hydrostatic reconstruction gives the same: reconstructed depths are zero, of water that does
   not move, or above the threshold *)
Definition clear_side (tiny_h zL zR : R) (q : vec3) : Prop :=
  tiny_h < hr_depth (c0 q) zL zR \/ (hr_depth (c0 q) zL zR = 0 /\ hr_velocity tiny_h 0 q = Some (Prim (c0 q) 0 0)).
Definition clear_edge (w : balancing) (tiny_h h_anuga : R) (z : nat -> R) (u : nat -> vec3) (e : iedge) : Prop :=
  match w with
  | Standard => True
  | Hydrostatic _ => h_anuga = 0 /\ clear_side tiny_h (z (ie_l e)) (z (ie_r e)) (u (ie_l e)) /\ clear_side tiny_h (z (ie_r e)) (z (ie_l e)) (u (ie_r e))
  end.
Record clear_state (w : balancing) (cf : cconfig) (z : nat -> R) (m : mesh) (x : step_input) (u : nat -> vec3) : Prop := {
  cl_dt : 0 <= st_dt x;
  cl_friction : friction_of cf = SemiImplicit -> cf_h_anuga cf = 0;
  cl_cells : forall c, In c (cells m) -> clear_depth (cf_tiny_h cf) (c0 (u c));
  cl_edges : forall e, In e (iedges m) -> clear_edge w (cf_tiny_h cf) (cf_h_anuga cf) z u e;
  cl_boundary : forall e, In e (st_bedges x) -> clear_boundary (cf_tiny_h cf) (cf_h_anuga cf) u e;
}.
(* second order: the reconstructed depths on both sides of an edge *)
Record clear_state2 (lim : limiter) (G : geometry) (cf : cconfig) (m : mesh) (x : step_input) (u : nat -> vec3) : Prop := {
  c2_state : clear_state Standard cf (fun _ => 0) m x u;
  c2_faces : forall e, In e (iedges m) -> c0 (fst (face_states lim G (iedges m) u e)) <> cf_tiny_h cf /\ c0 (snd (face_states lim G (iedges m) u e)) <> cf_tiny_h cf;
}.
(* the values of each cell in two global vectors of different layouts *)
Definition same_values (L : list (list nat)) (U : list (list R)) (L' : list (list nat)) (U' : list (list R)) : Prop :=
  forall r j c r' j' gs gs' x x', nth_error L r = Some gs -> nth_error gs j = Some c -> nth_error U r = Some x ->
    nth_error L' r' = Some gs' -> nth_error gs' j' = Some c -> nth_error U' r' = Some x' -> block 3 x j = block 3 x' j'.
