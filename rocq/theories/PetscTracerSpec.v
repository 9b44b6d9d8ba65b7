(** Specification for tracers on the PETSc back end on flat arrays (C75). *)
From Verif Require Import Base RoeModel EdgeModel HRModel SourceModel TracerModel AssemblyModel DecompModel DecompSpec TracerDecompModel TracerDecompSpec
  CeedLayoutModel CeedLayoutSpec CeedLayoutProperties CeedHRModel CeedHRSpec CeedRunModel CeedRunSpec PetscRunModel PetscRunSpec PetscTracerModel.
Local Open Scope R_scope.
Local Notation length := List.length.

(* sediment only, the source method there is, no critical outflow *)
Definition sediment_config (cf : cconfig) : Prop :=
  (0 < cf_classes cf)%nat /\ cf_salinity cf = false /\ cf_heat cf = false /\ cf_source cf = SOURCE_SEMI_IMPLICIT /\ 0 < cf_tiny_h cf.

(* a global vector holds the field [u]: three flow components and [nt] tracers for each cell *)
Definition tpart_holds (nt : nat) (u : nat -> tvec) (gs : list nat) (x : list R) : Prop :=
  length x = ((3 + nt) * length gs)%nat /\ forall i c, nth_error gs i = Some c -> block (3 + nt) x i = comps nt (u c).
Definition tholds (nt : nat) (L : list (list nat)) (U : list (list R)) (u : nat -> tvec) : Prop := Forall2 (tpart_holds nt u) L U.

(* a process as a part of the mesh; the condition on a boundary edge comes from the values at its position *)
Definition tcondition (ty : condition_type) (values : list R) : tbcond := match ty with DIRICHLET => TDirichlet (tv values) | _ => TReflecting end.
Definition tbedge_of (nt : nat) (m : cmesh) (b : cboundary) (pe : nat * nat) : bedge * tbcond :=
  (BEdge (left_cell m (snd pe)) (cm_len m (snd pe)) (cm_sn m (snd pe)) (cm_cn m (snd pe)) BCReflecting, tcondition (cb_type b) (block (3 + nt) (cb_values b) (fst pe))).
Definition trank_of (nt : nat) (p : cprocess) : trank :=
  let m := cp_mesh p in
  TRank (seq 0 (cm_cells m)) (cp_gid p) (cm_owned m) (map (iedge_of m) (cm_internal m))
        (flat_map (fun b => map (tbedge_of nt m b) (positions b)) (cp_bounds p)).

(* the discretisation chosen by the configuration, on the whole mesh with bed elevations [z] *)
Definition tchoice_of (w : balancing) (cf : cconfig) (z : nat -> R) (g : cellgeom) : tchoice :=
  TChoice (negb (includes_slope w)) (tkind (cf_riemann cf)) (cf_tiny_h cf) (cf_h_anuga cf) z g.

(* The arrays of a process describe its part of the mesh [m] with conditions [bcs]; it sees all the edges of the
   cells it owns; owned cells are numbered before ghosts; bed elevations are averages over vertices. *)
Record tprocess_ok (w : balancing) (cf : cconfig) (m : mesh) (bcs : bedge -> tbcond) (z : nat -> R) (g : cellgeom) (src : nat -> tvec) (p : cprocess) : Prop := {
  tp_conditions : forall b, In b (cp_bounds p) -> cb_type b <> CRITICAL_OUTFLOW;
  tp_values : values_ok cf (cp_bounds p);
  tp_part : tpart_ok m bcs (trank_of (cf_classes cf) p);
  tp_numbered : numbered (cp_mesh p);
  tp_order : exists k, forall c, (c < cm_cells (cp_mesh p))%nat -> cm_owned (cp_mesh p) c = Nat.ltb c k;
  tp_area : forall c, (c < cm_cells (cp_mesh p))%nat -> cm_area (cp_mesh p) c = area m (cp_gid p c);
  tp_slope : w = Standard -> forall c, (c < cm_cells (cp_mesh p))%nat -> cm_dzdx (cp_mesh p) c = dzdx g (cp_gid p c) /\ cm_dzdy (cp_mesh p) c = dzdy g (cp_gid p c);
  tp_bed : forall file, w = Hydrostatic file -> cells_ok (cp_hmesh p) /\ forall c, (c < cm_cells (cp_mesh p))%nat -> bed false (cp_hmesh p) c = z (cp_gid p c);
  tp_ext_length : length (cp_ext p) = ((3 + cf_classes cf) * length (owned_cells (cp_mesh p)))%nat;
  tp_mat_length : length (cp_mat p) = length (owned_cells (cp_mesh p));
  tp_ext : forall i c, nth_error (owned_cells (cp_mesh p)) i = Some c -> block (3 + cf_classes cf) (cp_ext p) i = comps (cf_classes cf) (src (cp_gid p c));
  tp_mat : forall i c, nth_error (owned_cells (cp_mesh p)) i = Some c -> nth i (cp_mat p) 0 = manning g (cp_gid p c);
}.
(* ... on every process, and the processes know where the values of their cells come from *)
Record tracer_distributed (w : balancing) (cf : cconfig) (m : mesh) (bcs : bedge -> tbcond) (z : nat -> R) (g : cellgeom) (src : nat -> tvec) (ps : list cprocess) : Prop := {
  td_processes : forall p, In p ps -> tprocess_ok w cf m bcs z g src p;
  td_sf : forall p c, In p ps -> (c < cm_cells (cp_mesh p))%nat ->
    exists gs, nth_error (layout ps) (fst (cp_sf p c)) = Some gs /\ nth_error gs (snd (cp_sf p c)) = Some (cp_gid p c);
}.

(* the arrays kept by a process have the sizes they are created with; their contents may be anything *)
Definition tbop_sized (edges : list nat) (st : tbop) : Prop := length (tb_right st) = length edges.
Definition kept_sized (nt : nat) (owned : nat) (E : list (list nat)) (k : list R * list tbop) : Prop :=
  length (fst k) = ((3 + nt) * owned)%nat /\ Forall2 tbop_sized E (snd k).
Definition all_kept (nt : nat) (L : list (list nat)) (E : list (list (list nat))) (S : list (list R * list tbop)) : Prop :=
  Forall2 (fun le k => kept_sized nt (length (fst le)) (snd le) k) (combine L E) S.

(* the flux between the states on the two sides of a boundary edge, of a dry edge too *)
Definition tracer_recorded (k : triemann) (tiny_h : R) (bc : tbcond) (qL : tvec) (sn cn : R) : option tvec :=
  let* L := petsc_tracer_prim tiny_h qL in
  let* Rt := match bc with TDirichlet qR => petsc_tracer_prim tiny_h qR | TReflecting => Some (petsc_tracer_reflect L sn cn) end in
  let* p := petsc_tracer_flux k L Rt sn cn in
  Some (fst p).
(* after an evaluation with state [u], for each edge whose cell is owned the fluxes through it are recorded *)
Definition trecords (cf : cconfig) (u : nat -> tvec) (p : cprocess) (b : cboundary) (st' : tbop) : Prop :=
  let m := cp_mesh p in let n := (3 + cf_classes cf)%nat in
  forall i e q, nth_error (cb_edges b) i = Some e -> cm_owned m (left_cell m e) = true ->
    tracer_recorded (tkind (cf_riemann cf)) (cf_tiny_h cf) (tcondition (cb_type b) (block n (cb_values b) i)) (u (cp_gid p (left_cell m e))) (cm_sn m e) (cm_cn m e) = Some q ->
    forall k, (k < n)%nat -> nth_error (tb_fluxes st') (n * i + k) = Some (Some (nth k (comps (cf_classes cf) q) 0)).

(* depth, velocities and concentrations of the owned cells, in their order *)
Definition tprimitives (cf : cconfig) (u : nat -> tvec) (p : cprocess) (pvs : list R) : Prop :=
  let nt := cf_classes cf in
  length pvs = ((3 + nt) * length (owned_cells (cp_mesh p)))%nat /\
  forall i c, nth_error (owned_cells (cp_mesh p)) i = Some c ->
    let q := u (cp_gid p c) in
    exists P cs, petsc_velocities (cf_tiny_h cf) (cf_h_anuga cf) (tflow q) = Some P /\ omap (tracer_output_conc (cf_tiny_h cf) q) (seq 0 nt) = Some cs /\
      block (3 + nt) pvs i = (ph P :: pu P :: pv P :: cs)%list.
