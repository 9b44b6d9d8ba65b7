(** Specification for runs of the PETSc back end on flat arrays (C73). *)
From Verif Require Import Base RoeModel EdgeModel HRModel SourceModel AssemblyModel DecompModel DecompSpec
  CeedLayoutModel CeedLayoutSpec CeedLayoutProperties CeedHRModel CeedHRSpec CeedRunModel CeedRunSpec PetscRunModel.
Local Open Scope R_scope.
Local Notation length := List.length.

(* a process as a part of the mesh, with all the edges it sees *)
Definition positions (b : cboundary) : list (nat * nat) := combine (seq 0 (length (cb_edges b))) (cb_edges b).
Definition prank_of (p : cprocess) : rank :=
  let m := cp_mesh p in
  Rank (seq 0 (cm_cells m)) (cp_gid p) (cm_owned m) (map (iedge_of m) (cm_internal m)) (fun _ => true)
       (flat_map (fun b => map (bedge_of m b) (positions b)) (cp_bounds p)) (fun _ => true).

(* the discretisation chosen by the configuration, on the whole mesh with bed elevations [z] *)
Definition petsc_scheme_of (w : balancing) (cf : cconfig) (z : nat -> R) (g : cellgeom) : scheme :=
  match w with
  | Standard => petsc_scheme (cf_tiny_h cf) (cf_h_anuga cf) (friction_of cf) g
  | Hydrostatic _ => petsc_hr_scheme (cf_tiny_h cf) (cf_h_anuga cf) z (friction_of cf) g
  end.

(* the flow alone, with a source method there is for PETSc *)
Definition petsc_config (cf : cconfig) : Prop := flow_config cf /\ cf_source cf <> SOURCE_ARK_IMEX.

(* The arrays of a process describe its part of the mesh [m]; it owns cells; it sees all the edges of the cells it
   owns.  Owned cells and ghosts may be numbered in any order. *)
Record petsc_process_ok (w : balancing) (cf : cconfig) (m : mesh) (z : nat -> R) (g : cellgeom) (src : nat -> vec3) (p : cprocess) : Prop := {
  pp_some : owned_cells (cp_mesh p) <> [];
  pp_values : values_ok cf (cp_bounds p);
  pp_numbering : numbering_ok m (prank_of p);
  pp_overlap : overlap_ok m (prank_of p);
  pp_numbered : numbered (cp_mesh p);
  pp_area : forall c, (c < cm_cells (cp_mesh p))%nat -> cm_area (cp_mesh p) c = area m (cp_gid p c);
  pp_slope : w = Standard -> forall c, (c < cm_cells (cp_mesh p))%nat -> cm_dzdx (cp_mesh p) c = dzdx g (cp_gid p c) /\ cm_dzdy (cp_mesh p) c = dzdy g (cp_gid p c);
  pp_bed : forall file, w = Hydrostatic file -> cells_ok (cp_hmesh p) /\ forall c, (c < cm_cells (cp_mesh p))%nat -> bed file (cp_hmesh p) c = z (cp_gid p c);
  pp_ext_length : length (cp_ext p) = (3 * length (owned_cells (cp_mesh p)))%nat;
  pp_mat_length : length (cp_mat p) = length (owned_cells (cp_mesh p));
  pp_ext : forall i c, nth_error (owned_cells (cp_mesh p)) i = Some c -> block 3 (cp_ext p) i = comps3 (src (cp_gid p c));
  pp_mat : forall i c, nth_error (owned_cells (cp_mesh p)) i = Some c -> nth i (cp_mat p) 0 = manning g (cp_gid p c);
}.

(* ... on every process, and the processes know where the values of their cells come from *)
Record petsc_distributed (w : balancing) (cf : cconfig) (m : mesh) (z : nat -> R) (g : cellgeom) (src : nat -> vec3) (ps : list cprocess) : Prop := {
  pd_processes : forall p, In p ps -> petsc_process_ok w cf m z g src p;
  pd_sf : forall p c, In p ps -> (c < cm_cells (cp_mesh p))%nat ->
    exists gs, nth_error (layout ps) (fst (cp_sf p c)) = Some gs /\ nth_error gs (snd (cp_sf p c)) = Some (cp_gid p c);
}.

(* the arrays of boundary operators have the sizes they are created with; their contents may be anything *)
Definition bop_sized (edges : list nat) (st : bop) : Prop := length (bo_right st) = length edges /\ length (bo_accum st) = (3 * length edges)%nat.
Definition bops_sized (E : list (list (list nat))) (S : list (list bop)) : Prop := Forall2 (Forall2 bop_sized) E S.
Definition boundary_edges (ps : list cprocess) : list (list (list nat)) := map (fun p => map cb_edges (cp_bounds p)) ps.
(* as created: PetscCalloc1 and VecZeroEntries *)
Definition bop_created (edges : list nat) : bop := BOp (repeat rstate0 (length edges)) (repeat (Some 0) (3 * length edges)) (repeat (Some 0) (3 * length edges)).

(* Over one evaluation of the right-hand side with step [dt] and state [u]: for each edge whose cell is owned, the
   flux [q] through it is recorded, and [dt] times the flux is added to what was accumulated so far. *)
Definition records (cf : cconfig) (u : nat -> vec3) (dt : R) (p : cprocess) (b : cboundary) (st st' : bop) : Prop :=
  let m := cp_mesh p in
  forall i e q, nth_error (cb_edges b) i = Some e -> cm_owned m (left_cell m e) = true ->
    petsc_boundary_recorded (cf_tiny_h cf) (cf_h_anuga cf) (flow_condition (cb_type b) (block 3 (cb_values b) i)) (u (cp_gid p (left_cell m e))) (cm_sn m e) (cm_cn m e) = Some q ->
    forall k, (k < 3)%nat ->
      nth_error (bo_fluxes st') (3 * i + k) = Some (Some (nth k (comps3 q) 0)) /\
      forall a, nth_error (bo_accum st) (3 * i + k) = Some (Some a) -> nth_error (bo_accum st') (3 * i + k) = Some (Some (a + dt * nth k (comps3 q) 0)).

(* depth and velocities of the owned cells, in their order *)
Definition primitives (cf : cconfig) (u : nat -> vec3) (p : cprocess) (pvs : list R) : Prop :=
  length pvs = (3 * length (owned_cells (cp_mesh p)))%nat /\
  forall i c, nth_error (owned_cells (cp_mesh p)) i = Some c ->
    exists P, petsc_velocities (cf_tiny_h cf) (cf_h_anuga cf) (u (cp_gid p c)) = Some P /\ block 3 pvs i = [ph P; pu P; pv P].
