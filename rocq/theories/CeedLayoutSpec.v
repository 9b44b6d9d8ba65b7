(** Specification for the flat arrays of the libCEED back end (C67, C68). *)
From Verif Require Import Base RoeModel EdgeModel EtaModel SourceModel TracerModel CeedLayoutModel.
Local Open Scope R_scope.
Local Notation length := List.length.

(* block [i] of an interleaved array with [n] components per entity *)
Definition block (n : nat) (x : list R) (i : nat) : list R := firstn n (skipn (i * n) x).

(* a block as a state of the flow, and of flow and tracers *)
Definition v3 (q : list R) : vec3 := V3 (nth 0 q 0) (nth 1 q 0) (nth 2 q 0).
Definition tv (q : list R) : tvec := TV (v3 q) (fun j => nth (3 + j) q 0).

(* jump of the vertex depths along an edge, from the surface elevations at the vertices *)
Definition edge_dhv (m : cmesh) (eta : list R) (e : nat) : R :=
  ComputeDhv (cm_z m (vertex_beg m e)) (cm_z m (vertex_end m e)) (nth (vertex_beg m e) eta 0) (nth (vertex_end m e) eta 0).

(* numerical flux through an internal edge, all components, and the wave speed *)
Definition interior_flux (cf : cconfig) (qL qR : list R) (sn cn dhv : R) : option (list R * R) :=
  if Nat.eqb (num_tracers cf) 0 then
    let* p := ceed_interior_edge GRAVITY (cf_tiny_h cf) (cf_h_anuga cf) (v3 qL) (v3 qR) sn cn dhv in Some (comps3 (fst p), snd p)
  else
    let* p := ceed_tracer_edge (tkind (cf_riemann cf)) GRAVITY (cf_tiny_h cf) (tv qL) (tv qR) sn cn in Some (comps (num_tracers cf) (fst p), snd p).

(* numerical flux through a boundary edge; [value] is the state prescribed on the edge *)
Definition flow_condition (ty : condition_type) (value : list R) : bcond :=
  match ty with DIRICHLET => BCDirichlet (v3 value) | REFLECTING => BCReflecting | CRITICAL_OUTFLOW => BCCriticalOutflow end.
Definition boundary_flux (cf : cconfig) (ty : condition_type) (value qL : list R) (sn cn dhv : R) : option (list R * R) :=
  if Nat.eqb (num_tracers cf) 0 then
    let* p := ceed_boundary_edge GRAVITY (cf_tiny_h cf) (cf_h_anuga cf) (flow_condition ty value) (v3 qL) sn cn dhv in Some (comps3 (fst p), snd p)
  else
    match ty with
    | DIRICHLET => let* p := ceed_tracer_bedge (tkind (cf_riemann cf)) GRAVITY (cf_tiny_h cf) (TDirichlet (tv value)) (tv qL) sn cn in Some (comps (num_tracers cf) (fst p), snd p)
    | REFLECTING => let* p := ceed_tracer_bedge (tkind (cf_riemann cf)) GRAVITY (cf_tiny_h cf) TReflecting (tv qL) sn cn in Some (comps (num_tracers cf) (fst p), snd p)
    | CRITICAL_OUTFLOW => None
    end.

(* an edge with its geometry: its cells and vertices exist, its cells have an area *)
Definition edge_ok (m : cmesh) (e : nat) : Prop :=
  (left_cell m e < cm_cells m)%nat /\ cm_area m (left_cell m e) <> 0 /\
  (vertex_beg m e < cm_vertices m)%nat /\ (vertex_end m e < cm_vertices m)%nat.
Record mesh_ok (m : cmesh) (bs : list cboundary) : Prop := {
  mo_internal : forall e, In e (cm_internal m) -> cm_eowned m e = true ->
    edge_ok m e /\ (right_cell m e < cm_cells m)%nat /\ cm_area m (right_cell m e) <> 0;
  mo_boundary : forall b e, In b bs -> In e (cb_edges b) -> cm_eowned m e = true -> edge_ok m e;
  mo_l2o : forall c, (c < cm_cells m)%nat -> (cm_l2o m c < cm_cells m)%nat;
  mo_l2o_inj : forall c c', (c < cm_cells m)%nat -> (c' < cm_cells m)%nat -> cm_l2o m c = cm_l2o m c' -> c = c';
}.

(* positions and ids of the owned edges of a boundary *)
Definition owned_edge (m : cmesh) (b : cboundary) (pe : nat * nat) : Prop :=
  nth_error (cb_edges b) (fst pe) = Some (snd pe) /\ cm_eowned m (snd pe) = true.

(** ** Sources *)

(* right-hand side of one cell, all components: the divergence [F], the bed slope, friction, erosion and
   deposition, and the external sources [src] *)
Definition source_update (cf : cconfig) (dt n dzdx dzdy : R) (q F src : list R) : option (list R) :=
  if Nat.eqb (num_tracers cf) 0 then
    let fr := match cf_source cf with SOURCE_SEMI_IMPLICIT => SemiImplicit | SOURCE_IMPLICIT_XQ2018 => XQ2018 (cf_xq_threshold cf) | SOURCE_ARK_IMEX => NoFriction end in
    let* s := ceed_rhs fr true GRAVITY dt (cf_tiny_h cf) (cf_h_anuga cf) n dzdx dzdy (v3 q) (v3 F) (v3 src) in Some (comps3 s)
  else
    match cf_source cf with
    | SOURCE_SEMI_IMPLICIT => let* s := ceed_tracer_rhs true GRAVITY dt (cf_tiny_h cf) n dzdx dzdy (tv q) (tv F) (tv src) in Some (comps (num_tracers cf) s)
    | SOURCE_IMPLICIT_XQ2018 => None
    | SOURCE_ARK_IMEX => let* s := tracer_source_terms false dt (cf_tiny_h cf) n dzdx dzdy (tv q) (tv F) (tv src) in Some (comps (num_tracers cf) s)
    end.

(* depth, velocities and concentrations of a cell, zero velocities and concentrations where it is dry *)
Definition primitives (cf : cconfig) (q : list R) : list R :=
  let h := nth 0 q 0 in
  let wet := cf_tiny_h cf <? h in
  let vel k := if wet then nth k q 0 * h / (h * h + cf_h_anuga cf * cf_h_anuga cf) else 0 in
  [h; vel 1%nat; vel 2%nat] ++ map (fun j => if wet then nth (3 + j) q 0 / h else 0) (seq 0 (num_tracers cf)).

(* rdymesh.c:155-180: owned cells are numbered in the order of their local ids *)
Definition numbered (m : cmesh) : Prop := forall i c, nth_error (owned_cells m) i = Some c -> cm_l2o m c = i.
